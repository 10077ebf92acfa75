(** * What is pointed at in an input field is what is seen (C105) *)
From Verif Require Import Base L_Base Demo M_Content S_Content L_Content2 L_Content4 M_View S_View M_Input S_Area S_Pen S_Paint S_Read L_Clean P_Pen P_Paint P_Read.
From Verif Require Import S_Fit L_Fit L_View L_Render M_Style M_Fit M_Render S_Render S_Input L_Input L_Input2 P_Input P_Cells S_Prompt P_Prompt P_ReadField S_Point.
From Verif Require Import S_Cut P_Content P_Cut.
From Verif Require P_Area.
Set Implicit Arguments.
Open Scope nat_scope.

(** ** The cells of a row *)
Lemma screen_styles u : forall l x y, Forall text_cmd l -> map (fun s => (s_char s, s_style s)) (screen u x y l) = flat_map (fun c => match c with Print s => map (fun ch => (ch, None)) s | Styled cs s => map (fun ch => (ch, Some cs)) s | _ => [] end) l.
Proof.
  induction l as [|c l IH]; intros x y H; [reflexivity|]. inversion H as [|? ? Hc Hl]; subst.
  assert (P : forall st s x y, map (fun s => (s_char s, s_style s)) (put u x y st s) = map (fun ch => (ch, st)) s) by (intros st; induction s as [|a s IH']; intros x' y'; [reflexivity|]; cbn [put map s_char s_style]; rewrite IH'; reflexivity).
  destruct Hc as [(s & ->)|(cs & s & ->)]; cbn [screen flat_map]; rewrite map_app, P, (IH _ _ Hl); reflexivity.
Qed.
(** The text of each row is seen in its place *)
Lemma row_seen u f out p tm j : usual_widths u -> on_screen (if_area f) -> 1 <= text_width f -> no_tab_shown f -> (N.of_nat (nb_lines f) < 65536)%N ->
  display_on u f = Ret (out, p) -> t_pen tm = pen0 -> j < height f ->
  exists sb content bar q, row_shown u f (scrollbar_style f) (text_width f) sb (N.of_nat j) (MoveTo (a_left (if_area f)) (a_top (if_area f) + N.of_nat j) :: content ++ bar) q
  /\ (let y := py (if_scroll f) + j in
      match nth_error (clines (if_content f)) y with
      | Some l => exists k cells, first_idx_at u (masked f l) (px (if_scroll f) + b2n (left_ellipsis f)) k
          /\ shows u (text_width f - b2n (left_ellipsis f)) (masked f l) (is_selected f y) (cursor_at_end f y l) k cells
          /\ content = (if left_ellipsis f then [Styled (normal_style f) [c_ellipsis]] else []) ++ S_Input.styled (normal_style f) (cursor_style f) cells
      | None => out_text content = repeat 32%N (text_width f) /\ Forall (fun c => exists s, c = Styled (normal_style f) s) content
      end)
  /\ Forall P_Area.styled_cmd content
  /\ shown_at u (term_run u tm out) (N.to_nat (a_left (if_area f))) (N.to_nat (a_top (if_area f)) + j) (drawn content).
Proof.
  intros HU HS W1 NT NL ED TP J. pose proof (clean_input _ _ ED) as Cl. pose proof (C80_input _ _ ED) as Fa.
  destruct (@C71_display u f out p HU HS W1 NL ED) as (sb & rows & ps & Esb & Eo & Ep & L1 & L2 & HR).
  pose proof Esb as Esb'. rewrite <- (N.mod_small (N.of_nat (nb_lines f)) U16 NL) in Esb'. destruct (@scrollbar_width f sb NL Esb') as (Ew & _).
  assert (Tl : forall i row, nth_error (map (screen u 0 0) rows) i = Some row ->
    tiles u (N.to_nat (a_top (if_area f)) + i) (N.to_nat (a_left (if_area f))) row (N.to_nat (a_left (if_area f)) + N.to_nat (a_width (if_area f)))).
  { intros i row' Er'. rewrite nth_error_map in Er'. destruct (nth_error rows i) as [row|] eqn:Er; [|discriminate Er']. injection Er' as <-.
    destruct (nth_error ps i) as [q|] eqn:Eq; [|apply nth_error_None in Eq; assert (i < length rows) by (apply nth_error_Some; congruence); lia].
    pose proof (HR i row q Er Eq) as H. pose proof (row_shown_width HU NT W1 H) as Wd. destruct (row_shown_text H) as (cmds & -> & Hc). cbn [screen].
    change (out_text (MoveTo (a_left (if_area f)) (a_top (if_area f) + N.of_nat i) :: cmds)) with (out_text cmds) in *.
    replace (N.to_nat (a_top (if_area f) + N.of_nat i)) with (N.to_nat (a_top (if_area f)) + i) by lia.
    replace (N.to_nat (a_left (if_area f)) + N.to_nat (a_width (if_area f))) with (N.to_nat (a_left (if_area f)) + sumw (chw u) (out_text cmds)); [apply screen_tiles; exact Hc|].
    rewrite Wd. destruct sb; lia. }
  destruct (nth_error rows j) as [row|] eqn:Er; [|apply nth_error_None in Er; lia]. destruct (nth_error ps j) as [q|] eqn:Eq; [|apply nth_error_None in Eq; lia].
  pose proof (HR j row q Er Eq) as H. pose proof (row_shown_text H) as (cmds & Ec & Hc). pose proof H as (content & bar & Er' & HC & _). exists sb, content, bar, q. rewrite Er' in H. split; [exact H|].
  rewrite Er' in Ec. injection Ec as <-. rewrite Nat2N.id in HC. cbv zeta in HC |- *. fold (left_ellipsis f) in HC. apply Forall_app in Hc as (Hc & Hb).
  assert (St : Forall P_Area.styled_cmd content).
  { destruct (nth_error (clines (if_content f)) _) as [l|].
    - destruct HC as (k & cells & _ & _ & -> & _). apply Forall_app. split; [destruct (left_ellipsis f); [constructor; [eexists _, _; reflexivity|constructor]|constructor]|].
      unfold S_Input.styled. apply Forall_forall. intros c I. apply in_map_iff in I as (x & <- & _). eexists _, _. reflexivity.
    - destruct HC as (_ & HC & _). eapply Forall_impl; [|exact HC]. intros c (s & ->). eexists _, _. reflexivity. }
  split; [|split; [exact St|]].
  { destruct (nth_error (clines (if_content f)) _) as [l|]; [|destruct HC as (A & B & _); auto]. destruct HC as (k & cells & A & B & D & _). exists k, cells. auto. }
  intros a c cs b i E L.
  assert (Sc : map (fun s => (s_char s, s_style s)) (screen u 0 0 row) = with_style (drawn content) ++ flat_map (fun c => match c with Print s => map (fun ch => (ch, None)) s | Styled cs s => map (fun ch => (ch, Some cs)) s | _ => [] end) bar).
  { rewrite Er'. cbn [screen]. rewrite screen_styles by (apply Forall_app; auto). rewrite flat_map_app. f_equal. clear - St. unfold with_style, drawn. induction St as [|c l (cs & s & ->) _ IH]; [reflexivity|].
    cbn [flat_map]. rewrite map_app, <- IH, map_map. reflexivity. }
  rewrite E in Sc. unfold with_style in Sc. rewrite map_app in Sc. cbn [map fst snd] in Sc. rewrite <- app_assoc in Sc. cbn [app] in Sc.
  apply map_eq_app in Sc as (A & R & Es & EA & ER). destruct R as [|s B]; [discriminate ER|]. cbn [map] in ER. injection ER as Ech Est _.
  assert (EA' : map s_char A = map fst a) by (apply (f_equal (map fst)) in EA; rewrite !map_map in EA; cbn [fst] in EA; exact EA).
  rewrite <- EA', <- Ech, <- Est. rewrite <- Ech in L. eapply spot_seen; [exact Cl|exact Fa|exact TP| |exact Tl| |exact L].
  - rewrite Eo. cbn [screen]. apply screen_rows. eapply rows_text; [rewrite L1, L2; reflexivity|exact HR].
  - rewrite nth_error_map, Er. cbn [option_map]. rewrite Es. reflexivity.
Qed.

(** ** The cells of a row of narrow chars *)
Lemma narrow_no_tab u l : narrow u l -> ~ In 9%N l.
Proof. intros H I. specialize (H _ I). cbv in H. discriminate H. Qed.
Lemma narrow_chw u c : columns u [c] = 1 -> chw u c = 1.
Proof. unfold columns. cbn. destruct (N.eqb c c_tab); lia. Qed.
Lemma narrow_columns u l : narrow u l -> columns u l = length l.
Proof.
  induction l as [|c l IH]; intros H; [reflexivity|]. rewrite columns_cons, (H c) by (left; reflexivity). rewrite IH; [reflexivity|]. intros x I. apply H. right. exact I.
Qed.
Lemma narrow_masked u f l : usual_widths u -> narrow u l -> narrow u (masked f l).
Proof.
  intros (_ & _ & U & _) H. unfold masked. destruct (password_mode f); [|exact H]. intros c I. apply in_map_iff in I as (x & <- & _). unfold columns. cbn. rewrite U. reflexivity.
Qed.
Lemma narrow_first u l col k : narrow u l -> first_idx_at u l col k -> k = Nat.min col (length l).
Proof.
  intros H F. eapply first_idx_unique; [exact F|]. assert (FN : forall i, i <= length l -> columns u (firstn i l) = i).
  { intros i I. rewrite narrow_columns by (intros c J; apply H; eapply in_firstn'; exact J). rewrite firstn_length. lia. }
  split; [destruct (Nat.le_gt_cases (length l) col); [right; lia|left; rewrite FN; lia]|]. intros i I. rewrite FN; lia.
Qed.
Lemma shown_nth u t x y d c ch cs : shown_at u t x y d -> (forall a, In a (map fst d) -> chw u a = 1) -> nth_error d c = Some (ch, cs) -> t_cell t (x + c) y = Part ch 0 (worn (Some cs)).
Proof.
  intros H N E. apply nth_error_split in E as (a & b & -> & <-). pose proof (H a ch cs b 0 eq_refl) as G.
  assert (L : sumw (chw u) (map fst a) = length a).
  { assert (Na : forall q, In q (map fst a) -> chw u q = 1) by (intros q I; apply N; rewrite map_app; apply in_or_app; left; exact I). clear - Na. induction a as [|e a IH]; [reflexivity|].
    cbn [map length]. rewrite sumw_cons, (Na (fst e)) by (left; reflexivity). rewrite IH; [reflexivity|]. intros q I. apply Na. right. exact I. }
  rewrite L, Nat.add_0_r in G. apply G. rewrite N; [lia|]. rewrite map_app. apply in_or_app. right. left. reflexivity.
Qed.
Lemma flagged_nth sel : forall p k i c, nth_error p i = Some c -> nth_error (flagged sel k p) i = Some (c, sel (k + i)).
Proof.
  unfold flagged. induction p as [|a p IH]; intros k [|i] c E; try discriminate E; cbn [length seq map combine nth_error] in *; [injection E as ->; rewrite Nat.add_0_r; reflexivity|].
  rewrite (IH (S k) i c E). f_equal. f_equal. f_equal. lia.
Qed.
Lemma flagged_length sel p k : length (flagged sel k p) = length p.
Proof. unfold flagged. rewrite combine_length, map_length, seq_length. lia. Qed.

(** The cells of the line, from its char [k] *)
Lemma cells_nth u w m sel at_end k cells i : narrow u m -> shows u w m sel at_end k cells -> k <= length m -> i < w ->
  nth_error cells i = Some (match nth_error m (k + i) with
                            | Some ch => (if (S i =? w) && (S (k + i) <? length m) then c_ellipsis else ch, sel (k + i))
                            | None => (32%N, at_end && (i =? length m - k))
                            end).
Proof.
  intros Nm (p & q & mark & Ek & Ec & Hq) Hk Hi. cbv zeta in Ec.
  assert (Lm : length m = k + length p + length q) by (apply (f_equal (@length _)) in Ek; rewrite skipn_length, app_length in Ek; lia).
  assert (Cp : columns u p = length p). { apply narrow_columns. intros c I. apply Nm. rewrite <- (firstn_skipn k m), Ek. apply in_or_app. right. apply in_or_app. left. exact I. }
  assert (Nt : forall i, nth_error m (k + i) = nth_error (p ++ q) i).
  { intros n. rewrite <- Ek. rewrite <- (firstn_skipn k m) at 1. rewrite nth_error_app2 by (rewrite firstn_length; lia). f_equal. rewrite firstn_length. lia. }
  rewrite Nt, Ec, Cp. destruct q as [|c q'].
  - destruct Hq as (Hw & _ & ->). rewrite Cp in Hw. cbn [length] in Lm. rewrite app_nil_r. cbn [length app]. rewrite Nat.add_0_r. destruct (nth_error p i) as [ch|] eqn:Ep.
    + assert (i < length p) by (apply nth_error_Some; congruence). rewrite nth_error_app1 by (rewrite flagged_length; lia). rewrite (flagged_nth _ _ _ _ Ep). f_equal. f_equal.
      destruct (Nat.eqb_spec (S i) w); cbn [andb]; [|reflexivity]. destruct (Nat.ltb_spec (S (k + i)) (length m)); [lia|reflexivity].
    + apply nth_error_None in Ep. rewrite nth_error_app2 by (rewrite flagged_length; lia). rewrite flagged_length. rewrite (proj2 (Nat.ltb_lt (length p) w)) by lia. cbn [andb].
      replace (length m - k) with (length p) by lia. destruct at_end; cbn [andb length app].
      * destruct (Nat.eqb_spec i (length p)) as [->|D]; [rewrite Nat.sub_diag; reflexivity|]. destruct (i - length p) as [|n] eqn:Q; [lia|]. cbn [nth_error]. apply nth_error_repeat. lia.
      * apply nth_error_repeat. lia.
  - destruct Hq as (H1 & H2 & H3 & ->). rewrite Cp in *. cbn [length] in *. assert (C1 : columns u [c] = 1). { apply Nm. rewrite <- (firstn_skipn k m), Ek. apply in_or_app. right. apply in_or_app. right. left. reflexivity. }
    rewrite C1 in *. assert (Q : 1 <= length q') by (destruct q'; [specialize (H3 eq_refl); lia|cbn; lia]). destruct (Nat.lt_ge_cases i (length p)) as [L|L].
    + rewrite nth_error_app1 by (rewrite flagged_length; lia). rewrite nth_error_app1 by lia. destruct (nth_error p i) as [ch|] eqn:Ep; [|apply nth_error_None in Ep; lia].
      rewrite (flagged_nth _ _ _ _ Ep). destruct (Nat.eqb_spec (S i) w); [lia|]. reflexivity.
    + assert (i = length p) by lia. subst i. rewrite nth_error_app2 by (rewrite flagged_length; lia). rewrite flagged_length, Nat.sub_diag.
      replace (nth_error (p ++ c :: q') (length p)) with (Some c) by (rewrite nth_error_app2, Nat.sub_diag by lia; reflexivity). cbn [nth_error app].
      rewrite (proj2 (Nat.eqb_eq _ _)) by lia. rewrite (proj2 (Nat.ltb_lt _ _)) by lia. reflexivity.
Qed.

(** ** The selection *)
Lemma range_between a b i y : range_contains (if pos_ltb a b then mkRange a b else mkRange b a) i y = between a b (mkPos y i).
Proof.
  unfold between, pos_le, pos_ltb. destruct a as (ya & xa), b as (yb & xb). cbn [py px].
  destruct (Nat.ltb_spec ya yb), (Nat.eqb_spec ya yb), (Nat.ltb_spec xa xb); try lia; cbn [orb andb]; unfold range_contains; cbn [rmin rmax py px];
    repeat match goal with |- context [?p =? ?q] => destruct (Nat.eqb_spec p q); try lia end; repeat match goal with |- context [?p <? ?q] => destruct (Nat.ltb_spec p q); try lia end;
    repeat match goal with |- context [?p <=? ?q] => destruct (Nat.leb_spec p q); try lia end; reflexivity.
Qed.
Lemma selected_lit f y i : is_selected f y i = focused f && match ctail (if_content f) with Some t => between t (cpos (if_content f)) (mkPos y i) | None => pos_eq (mkPos y i) (cpos (if_content f)) end.
Proof.
  unfold is_selected, selection. f_equal. destruct (ctail (if_content f)) as [t|]; [apply range_between|]. unfold range_contains, pos_eq. cbn [rmin rmax py px]. rewrite Nat.eqb_refl.
  destruct (Nat.eqb_spec y (py (cpos (if_content f)))); cbn [andb]; [|reflexivity]. destruct (Nat.eqb_spec i (px (cpos (if_content f)))), (Nat.leb_spec (px (cpos (if_content f))) i), (Nat.leb_spec i (px (cpos (if_content f)))); try lia; reflexivity.
Qed.

(** ** C105 *)

(** What is seen in each cell of the text of a field whose chars take one column, whatever was on the terminal *)
Theorem C105_picture : forall u f out p tm c j, usual_widths u -> on_screen (if_area f) -> narrow_text u f -> (N.of_nat (nb_lines f) < 65536)%N ->
  display_on u f = Ret (out, p) -> t_pen tm = pen0 -> c < text_width f -> j < height f ->
  t_cell (term_run u tm out) (N.to_nat (a_left (if_area f)) + c) (N.to_nat (a_top (if_area f)) + j) = field_cell f c j.
Proof.
  intros u f out p tm c j HU HS Na NL ED TP Hc Hj. assert (W1 : 1 <= text_width f) by lia.
  assert (NT : no_tab_shown f) by (right; intros l I; eapply narrow_no_tab, Na, I).
  destruct (@row_seen u f out p tm j HU HS W1 NT NL ED TP Hj) as (sb & content & bar & q & _ & HC & St & Sh). cbv zeta in HC. pose proof HU as (U1 & U2 & U3 & _).
  unfold field_cell, field_char, lit. cbn [place py px]. set (y := py (if_scroll f) + j) in *. destruct (nth_error (clines (if_content f)) y) as [l|] eqn:El.
  - destruct HC as (k & cells & HK & HSH & ->). assert (Nl : narrow u l) by (apply Na; eapply nth_error_In; exact El). pose proof (narrow_masked f HU Nl) as Nm.
    pose proof (narrow_first Nm HK) as Ek. assert (Lm : length (masked f l) = length l) by apply masked_length. rewrite Lm in Ek.
    set (e := b2n (left_ellipsis f)) in *. set (w' := text_width f - e) in *.
    assert (He : e <= 1 /\ (left_ellipsis f = true -> e = 1 /\ 4 < text_width f) /\ (left_ellipsis f = false -> e = 0)).
    { unfold e, left_ellipsis. destruct (0 <? px (if_scroll f)); cbn [andb b2n]; [|repeat split; try lia; discriminate]. destruct (Nat.ltb_spec 4 (text_width f)); cbn [b2n]; repeat split; try lia; discriminate. }
    pose proof (fun i Hi => @cells_nth u w' (masked f l) _ _ k cells i Nm HSH ltac:(lia) Hi) as CN. rewrite Lm in CN.
    assert (AllN : forall a, In a (map fst (drawn ((if left_ellipsis f then [Styled (normal_style f) [c_ellipsis]] else []) ++ S_Input.styled (normal_style f) (cursor_style f) cells))) -> chw u a = 1).
    { intros a I. unfold drawn in I. rewrite flat_map_app, map_app in I. apply in_app_or in I as [I|I].
      - destruct (left_ellipsis f); [|destruct I]. cbn in I. destruct I as [<-|[]]. exact U2.
      - fold (drawn (S_Input.styled (normal_style f) (cursor_style f) cells)) in I. rewrite drawn_text in I by (unfold S_Input.styled; apply Forall_forall; intros d I'; apply in_map_iff in I' as (? & <- & _); eexists _, _; reflexivity).
        rewrite styled_out in I. destruct HSH as (pp & qq & mark & Eq & Ec & Hq). cbv zeta in Ec. rewrite Ec in I. rewrite !map_app in I. rewrite flagged_fst in I. apply in_app_or in I as [I|I].
        + apply narrow_chw. apply Nm. rewrite <- (firstn_skipn k (masked f l)), Eq. apply in_or_app. right. apply in_or_app. left. exact I.
        + apply in_app_or in I as [I|I]; [destruct qq; [destruct Hq as (_ & _ & ->); destruct I|destruct Hq as (_ & _ & _ & ->); destruct I as [<-|[]]; exact U2]|].
          apply in_app_or in I as [I|I]; [destruct (_ && _); [destruct I as [<-|[]]; exact U1|destruct I]|]. rewrite L_Render.map_repeat in I. apply repeat_spec in I. subst a. exact U1. }
    assert (DE : drawn ((if left_ellipsis f then [Styled (normal_style f) [c_ellipsis]] else []) ++ S_Input.styled (normal_style f) (cursor_style f) cells)
      = (if left_ellipsis f then [(c_ellipsis, normal_style f)] else []) ++ map (fun x : char * bool => (fst x, if snd x then cursor_style f else normal_style f)) cells).
    { unfold drawn. rewrite flat_map_app. f_equal; [destruct (left_ellipsis f); reflexivity|]. unfold S_Input.styled. clear. induction cells as [|x cells IH]; [reflexivity|]. cbn [map flat_map app]. rewrite IH. reflexivity. }
    rewrite DE in *. eapply shown_nth; [exact Sh|exact AllN|]. destruct (left_ellipsis f) eqn:LE; cbn [andb].
    + destruct He as (_ & He & _). destruct (He eq_refl) as (E1 & W4). rewrite E1 in *. destruct c as [|c]; cbn [Nat.eqb]; [rewrite andb_false_r; reflexivity|]. cbn [app nth_error].
      rewrite nth_error_map, (CN c) by (unfold w'; lia). cbn [option_map fst snd]. rewrite selected_lit. unfold cursor_at_end. destruct (Nat.lt_ge_cases (px (if_scroll f) + S c) (length l)) as [L|L].
      * replace (k + c) with (px (if_scroll f) + S c) by lia. rewrite (proj2 (Nat.ltb_lt (px (if_scroll f) + S c) (length l)) L).
        destruct (nth_error l (px (if_scroll f) + S c)) as [ch|] eqn:En; [|apply nth_error_None in En; lia].
        assert (Em : nth_error (masked f l) (px (if_scroll f) + S c) = Some (if password_mode f then 42%N else ch)) by (unfold masked; destruct (password_mode f); [rewrite nth_error_map, En|rewrite En]; reflexivity).
        rewrite Em. cbn [fst snd]. replace (S c =? w') with (S (S c) =? text_width f); [destruct (_ && _); reflexivity|].
        destruct (Nat.eqb_spec (S (S c)) (text_width f)), (Nat.eqb_spec (S c) w'); try reflexivity; unfold w' in *; lia.
      * rewrite (proj2 (Nat.ltb_ge (px (if_scroll f) + S c) (length l)) L). rewrite (proj2 (nth_error_None l _) L). rewrite (proj2 (nth_error_None (masked f l) (k + c))) by (rewrite Lm; lia).
        cbn [fst snd]. f_equal. f_equal. unfold pos_eq, end_column, cursor_row. rewrite LE. cbn [py px b2n]. rewrite (Nat.eqb_sym y). rewrite <- !andb_assoc.
        replace (c =? length l - k) with (S c =? Nat.max (length l - px (if_scroll f)) 1); [reflexivity|]. destruct (Nat.eqb_spec (S c) (Nat.max (length l - px (if_scroll f)) 1)), (Nat.eqb_spec c (length l - k)); try reflexivity; lia.
    + destruct He as (_ & _ & He). specialize (He eq_refl). rewrite He in *. cbn [app]. rewrite nth_error_map, (CN c) by (unfold w'; lia). cbn [option_map fst snd]. rewrite selected_lit. unfold cursor_at_end.
      replace w' with (text_width f) by (unfold w'; lia). destruct (Nat.lt_ge_cases (px (if_scroll f) + c) (length l)) as [L|L].
      * replace (k + c) with (px (if_scroll f) + c) by lia. rewrite (proj2 (Nat.ltb_lt (px (if_scroll f) + c) (length l)) L).
        destruct (nth_error l (px (if_scroll f) + c)) as [ch|] eqn:En; [|apply nth_error_None in En; lia].
        assert (Em : nth_error (masked f l) (px (if_scroll f) + c) = Some (if password_mode f then 42%N else ch)) by (unfold masked; destruct (password_mode f); [rewrite nth_error_map, En|rewrite En]; reflexivity).
        rewrite Em. cbn [fst snd]. destruct (_ && _); reflexivity.
      * rewrite (proj2 (Nat.ltb_ge (px (if_scroll f) + c) (length l)) L). rewrite (proj2 (nth_error_None l _) L). rewrite (proj2 (nth_error_None (masked f l) (k + c))) by (rewrite Lm; lia).
        cbn [fst snd]. f_equal. f_equal. unfold pos_eq, end_column, cursor_row. rewrite LE. cbn [py px b2n]. rewrite (Nat.eqb_sym y). rewrite <- !andb_assoc.
        replace (c =? length l - k) with (c =? Nat.max (length l - px (if_scroll f)) 0); [reflexivity|]. destruct (Nat.eqb_spec c (Nat.max (length l - px (if_scroll f)) 0)), (Nat.eqb_spec c (length l - k)); try reflexivity; lia.
  - destruct HC as (Ho & HF). rewrite andb_false_r. assert (ED' : drawn content = map (fun ch => (ch, normal_style f)) (repeat 32%N (text_width f))).
    { rewrite <- Ho. clear - HF. induction HF as [|x l (s & ->) _ IH]; [reflexivity|]. unfold drawn, out_text in *. cbn [flat_map cmd_text]. rewrite map_app, <- IH. reflexivity. }
    rewrite ED' in Sh. eapply shown_nth; [exact Sh| |].
    + intros a I. rewrite map_map in I. cbn [fst] in I. rewrite map_id in I. apply repeat_spec in I. subst a. exact U1.
    + rewrite L_Render.map_repeat. apply nth_error_repeat. exact Hc.
Qed.
Print Assumptions C105_picture.

(** ** Pressing and dragging *)
Lemma pointed u f c j : field_ok f -> narrow_text u f -> c < text_width f -> j < height f -> exists p,
  cell_pos u f (a_left (if_area f) + N.of_nat c) (a_top (if_area f) + N.of_nat j) = Ret p /\ valid_pos (clines (if_content f)) p
  /\ py p = Nat.min (py (if_scroll f) + j) (nb_lines f - 1) /\ forall l, nth_error (clines (if_content f)) (py p) = Some l -> px p = Nat.min (px (if_scroll f) + c) (length l).
Proof.
  intros OK Na Hc Hj. assert (CI : cell_in (if_area f) (a_left (if_area f) + N.of_nat c) (a_top (if_area f) + N.of_nat j)).
  { unfold cell_in, text_width, height in *. destruct (N.to_nat (a_height (if_area f)) <? nb_lines f) in *; lia. }
  destruct (@cell_pos_spec u f _ _ OK CI) as (p & E & K & V). exists p. split; [exact E|]. split; [exact V|]. pose proof K as (K1 & _).
  split; [rewrite K1; f_equal; f_equal; lia|]. intros l El. rewrite (C15_narrow K El); [f_equal; f_equal; lia|]. apply Na. eapply nth_error_In. exact El.
Qed.
Lemma inside_area f c j : c < text_width f -> j < height f -> cell_in (if_area f) (a_left (if_area f) + N.of_nat c) (a_top (if_area f) + N.of_nat j).
Proof. unfold cell_in, text_width, height. intros Hc Hj. destruct (N.to_nat (a_height (if_area f)) <? nb_lines f) in *; lia. Qed.
(** The position of a cell of the text *)
Definition at_cell (f : InputField) (c j : nat) (p : Pos) : Prop :=
  py p = Nat.min (py (if_scroll f) + j) (nb_lines f - 1) /\ forall l, nth_error (clines (if_content f)) (py p) = Some l -> px p = Nat.min (px (if_scroll f) + c) (length l).
Lemma at_text f c j p : on_text f c j -> at_cell f c j p -> p = place f c j.
Proof.
  intros (_ & _ & _ & l & El & Hl) (H1 & H2). cbn [place py px] in *. assert (py (if_scroll f) + j < nb_lines f) by (apply nth_error_Some; congruence).
  assert (E : py p = py (if_scroll f) + j) by lia. rewrite E in H2. specialize (H2 l El). destruct p as (y & x). cbn [py px] in *. unfold place. f_equal; lia.
Qed.
Lemma at_unique f c j p q : at_cell f c j p -> at_cell f c j q -> valid_pos (clines (if_content f)) p -> p = q.
Proof.
  intros (H1 & H2) (G1 & G2) (l & El & _). assert (E : py p = py q) by congruence. specialize (H2 l El). rewrite E in El. specialize (G2 l El). destruct p as (yp & xp), q as (yq & xq). cbn in *. congruence.
Qed.
Lemma valid_unselect c : valid c -> valid (unselect c).
Proof. intros (V1 & V2 & _ & V4). split; [exact V1|]. split; [exact V2|]. split; [intros t Et; discriminate Et|exact V4]. Qed.
Lemma valid_moved c p : valid c -> valid_pos (clines c) p -> valid (set_cpos c p).
Proof. intros (V1 & _ & V3 & V4) V2. split; [exact V1|]. split; [exact V2|]. split; [exact V3|exact V4]. Qed.
Lemma press_done u f c j d : field_ok f -> narrow_text u f -> focused f = true -> c < text_width f -> j < height f ->
  exists p, at_cell f c j p /\ valid_pos (clines (if_content f)) p /\ apply_event u f (press f c j) d = Ret (with_content f (set_cpos (unselect (if_content f)) p), true).
Proof.
  intros OK Na F Hc Hj. pose proof OK as (V & _ & HS). destruct (@pointed u f c j OK Na Hc Hj) as (p & E & Vp & A1 & A2). exists p. split; [split; assumption|]. split; [exact Vp|].
  unfold press, mouse_at. cbn [apply_event apply_mouse_event m_kind m_column m_row m_mods]. unfold apply_mouse_event. cbn [m_kind m_column m_row m_mods]. rewrite contains_in by (try apply inside_area; assumption). cbn [bind].
  rewrite F, E. cbn [bind]. change (N.eqb 0 SHIFT) with false. cbn match. rewrite set_cursor_exact; [reflexivity| |exact Vp]. exact (valid_unselect V).
Qed.
Theorem C105_press : forall u f c j d, field_ok f -> narrow_text u f -> focused f = true -> c < text_width f -> j < height f ->
  exists f', apply_event u f (press f c j) d = Ret (f', true) /\ only_content f f' /\ field_ok f' /\ narrow_text u f' /\ focused f' = true /\ ctail (if_content f') = None
  /\ (forall c' j', field_char f' c' j' = field_char f c' j')
  (* on a char of the text: its cell is the only one with the style of the cursor *)
  /\ (on_text f c j -> forall c' j', c' < text_width f -> lit f' c' j' = (c' =? c) && (j' =? j))
  (* after the end of a line *)
  /\ (forall l, nth_error (clines (if_content f)) (py (place f c j)) = Some l -> length l <= px (place f c j) ->
        forall c' j', c' < text_width f -> lit f' c' j' = (c' =? end_column f (length l)) && (j' =? j))
  (* on the ellipsis at the left of a line: the char at the cursor isn't seen *)
  /\ (forall l, nth_error (clines (if_content f)) (py (place f c j)) = Some l -> px (place f c j) < length l -> left_ellipsis f = true -> c = 0 ->
        cpos (if_content f') = place f c j /\ forall c' j', lit f' c' j' = false)
  (* below the last line: as if it was on the last line *)
  /\ (nb_lines f <= py (place f c j) -> py (if_scroll f) < nb_lines f -> apply_event u f (press f c (nb_lines f - 1 - py (if_scroll f))) d = Ret (f', true)).
Proof.
  intros u f c j d OK Na F Hc Hj. destruct (@press_done u f c j d OK Na F Hc Hj) as (p & Ap & Vp & E). eexists. split; [exact E|]. pose proof OK as (V & AO).
  split; [exists (set_cpos (unselect (if_content f)) p), (if_scroll f); destruct f; reflexivity|].
  split; [split; [|exact AO]; apply valid_moved; [exact (valid_unselect V)|exact Vp]|]. split; [exact Na|]. split; [exact F|]. split; [reflexivity|]. split; [reflexivity|].
  set (f' := with_content f _). assert (LT : forall c' j', lit f' c' j' = match nth_error (clines (if_content f)) (py (place f c' j')) with
     | None => false
     | Some l => if left_ellipsis f && (c' =? 0) then false else if px (place f c' j') <? length l then pos_eq (place f c' j') p
                 else pos_eq p (mkPos (py (place f c' j')) (length l)) && (c' =? end_column f (length l)) end).
  { intros c' j'. unfold lit. change (focused f') with (focused f). rewrite F. reflexivity. }
  split; [|split; [|split]].
  - intros OT c' j' Hc'. pose proof (at_text OT Ap) as Ep. rewrite LT, Ep. destruct OT as (_ & _ & LE & l & El & Hl). cbn [place py px] in *. unfold pos_eq, place. cbn [py px].
    destruct (Nat.eqb_spec j' j) as [->|D].
    + rewrite El, andb_true_r. destruct (Nat.eqb_spec c' c) as [->|D].
      * rewrite (proj2 (Nat.ltb_lt _ _) Hl), !Nat.eqb_refl. destruct (left_ellipsis f) eqn:Q; cbn [andb]; [|reflexivity]. destruct (Nat.eqb_spec c 0); [destruct (LE eq_refl); assumption|reflexivity].
      * destruct (_ && (c' =? 0)); [reflexivity|]. rewrite Nat.eqb_refl. cbn [andb]. destruct (Nat.ltb_spec (px (if_scroll f) + c') (length l)); [destruct (Nat.eqb_spec (px (if_scroll f) + c') (px (if_scroll f) + c)); [lia|reflexivity]|].
        destruct (Nat.eqb_spec (px (if_scroll f) + c) (length l)); [lia|reflexivity].
    + rewrite andb_false_r. destruct (nth_error (clines (if_content f)) (py (if_scroll f) + j')) as [l'|]; [|reflexivity]. destruct (_ && (c' =? 0)); [reflexivity|]. destruct (_ <? _).
      * destruct (Nat.eqb_spec (py (if_scroll f) + j') (py (if_scroll f) + j)); [lia|reflexivity].
      * destruct (Nat.eqb_spec (py (if_scroll f) + j) (py (if_scroll f) + j')); [lia|reflexivity].
  - intros l El Hl c' j' Hc'. cbn [place py px] in El, Hl. assert (Hy : py (if_scroll f) + j < nb_lines f) by (apply nth_error_Some; congruence).
    assert (Ep : p = mkPos (py (if_scroll f) + j) (length l)).
    { destruct Ap as (A1 & A2). rewrite (Nat.min_l _ (nb_lines f - 1)) in A1 by lia. rewrite A1 in A2. specialize (A2 l El). destruct p as (yp & xp). cbn [py px] in A1, A2. f_equal; lia. }
    rewrite LT, Ep. cbn [place py px]. unfold pos_eq, place. cbn [py px]. destruct (Nat.eqb_spec j' j) as [->|D].
    + rewrite El, andb_true_r, !Nat.eqb_refl. cbn [andb]. unfold end_column. destruct (left_ellipsis f) eqn:Q; cbn [andb b2n].
      * destruct (Nat.eqb_spec c' 0); [destruct (Nat.eqb_spec c' (Nat.max (length l - px (if_scroll f)) 1)); [lia|reflexivity]|].
        destruct (Nat.ltb_spec (px (if_scroll f) + c') (length l)); [|reflexivity]. destruct (Nat.eqb_spec (px (if_scroll f) + c') (length l)), (Nat.eqb_spec c' (Nat.max (length l - px (if_scroll f)) 1)); try lia; reflexivity.
      * destruct (Nat.ltb_spec (px (if_scroll f) + c') (length l)); [|reflexivity]. destruct (Nat.eqb_spec (px (if_scroll f) + c') (length l)), (Nat.eqb_spec c' (Nat.max (length l - px (if_scroll f)) 0)); try lia; reflexivity.
    + rewrite andb_false_r. destruct (nth_error (clines (if_content f)) (py (if_scroll f) + j')) as [l'|]; [|reflexivity]. destruct (_ && (c' =? 0)); [reflexivity|]. destruct (_ <? _).
      * destruct (Nat.eqb_spec (py (if_scroll f) + j') (py (if_scroll f) + j)); [lia|reflexivity].
      * destruct (Nat.eqb_spec (py (if_scroll f) + j) (py (if_scroll f) + j')); [lia|reflexivity].
  - intros l El Hl LE ->. cbn [place py px] in El, Hl. assert (Hy : py (if_scroll f) + j < nb_lines f) by (apply nth_error_Some; congruence).
    assert (Ep : p = mkPos (py (if_scroll f) + j) (px (if_scroll f) + 0)).
    { destruct Ap as (A1 & A2). rewrite (Nat.min_l _ (nb_lines f - 1)) in A1 by lia. rewrite A1 in A2. specialize (A2 l El). destruct p as (yp & xp). cbn [py px] in A1, A2. f_equal; lia. }
    split; [exact Ep|]. intros c' j'. rewrite LT, Ep, LE. cbn [place py px andb]. unfold pos_eq, place. cbn [py px]. destruct (nth_error (clines (if_content f)) (py (if_scroll f) + j')) as [l'|] eqn:El'; [|reflexivity].
    destruct (Nat.eqb_spec c' 0); [reflexivity|]. destruct (Nat.eqb_spec (py (if_scroll f) + j') (py (if_scroll f) + j)) as [Q|Q].
    + rewrite Q in *. assert (l' = l) by congruence. subst l'. rewrite Nat.eqb_refl. cbn [andb]. destruct (Nat.ltb_spec (px (if_scroll f) + c') (length l)); [destruct (Nat.eqb_spec (px (if_scroll f) + c') (px (if_scroll f) + 0)); [lia|reflexivity]|].
      destruct (Nat.eqb_spec (px (if_scroll f) + 0) (length l)); [lia|reflexivity].
    + cbn [andb]. destruct (_ <? _); [reflexivity|]. destruct (Nat.eqb_spec (py (if_scroll f) + j) (py (if_scroll f) + j')); [lia|reflexivity].
  - cbn [place py px]. intros B S1. set (j2 := nb_lines f - 1 - py (if_scroll f)). assert (Hj2 : j2 < height f) by (unfold j2; lia).
    destruct (@press_done u f c j2 d OK Na F Hc Hj2) as (p2 & Ap2 & Vp2 & E2). rewrite E2. unfold f'. assert (p2 = p); [|congruence].
    eapply at_unique; [|exact Ap|exact Vp2]. destruct Ap2 as (B1 & B2). split; [rewrite B1; unfold j2; lia|exact B2].
Qed.
Print Assumptions C105_press.

(** ** Dragging *)
(** The fields which are reached: the press was at [p], and the cursor is somewhere in the text *)
Definition dragged (f : InputField) (p : Pos) (f' : InputField) : Prop :=
  exists c, f' = with_content f c /\ clines c = clines (if_content f) /\ valid c /\ (ctail c = Some p \/ ctail c = None /\ cpos c = p).
Lemma drag_step u f p f' m x y d : field_ok f -> focused f = true -> dragged f p f' ->
  exists f'' b, apply_event u f' (EMouse (mkMouse (MDrag BLeft) x y m)) d = Ret (f'', b) /\ dragged f p f''
  /\ (forall c j, c < text_width f -> j < height f -> narrow_text u f -> x = (a_left (if_area f) + N.of_nat c)%N -> y = (a_top (if_area f) + N.of_nat j)%N ->
        ctail (if_content f'') = Some p /\ at_cell f c j (cpos (if_content f''))).
Proof.
  intros OK F (cc & -> & EL & V & T). pose proof OK as (_ & AW & HS). cbn [apply_event]. unfold apply_mouse_event. cbn [m_kind m_column m_row m_mods].
  set (f' := with_content f cc). change (if_area f') with (if_area f). change (focused f') with (focused f).
  assert (OK' : field_ok f') by (split; [exact V|split; assumption]).
  destruct (contains (if_area f) x y) as [b| |] eqn:Ec.
  2,3: destruct ((a_left (if_area f) <=? x)%N && (x <? a_left (if_area f) + a_width (if_area f))%N && (a_top (if_area f) <=? y)%N && (y <? a_top (if_area f) + a_height (if_area f))%N) eqn:Q;
       [rewrite contains_in in Ec; [discriminate Ec|exact HS|unfold cell_in; lia]|rewrite contains_out in Ec; [discriminate Ec|exact HS|unfold cell_in; lia]].
  cbn [bind]. assert (CI : b = true <-> cell_in (if_area f) x y).
  { destruct ((a_left (if_area f) <=? x)%N && (x <? a_left (if_area f) + a_width (if_area f))%N && (a_top (if_area f) <=? y)%N && (y <? a_top (if_area f) + a_height (if_area f))%N) eqn:Q.
    - rewrite contains_in in Ec; [|exact HS|unfold cell_in; lia]. injection Ec as <-. unfold cell_in. split; [lia|reflexivity].
    - rewrite contains_out in Ec; [|exact HS|unfold cell_in; lia]. injection Ec as <-. unfold cell_in. split; [discriminate|lia]. }
  destruct b.
  - rewrite F. destruct (@cell_pos_spec u f' x y OK' (proj1 CI eq_refl)) as (p' & Ep & K & Vp). rewrite Ep. cbn [bind].
    assert (Vs : valid (make_selection cc)). { unfold make_selection. destruct (ctail cc) eqn:Q; [exact V|]. destruct V as (V1 & V2 & _ & V4). split; [exact V1|]. split; [exact V2|]. split; [|exact V4]. intros t Et. cbn [set_ctail ctail] in Et. injection Et as <-. exact V2. }
    assert (Es : clines (make_selection cc) = clines cc) by (unfold make_selection; destruct (ctail cc); reflexivity).
    assert (Et : ctail (make_selection cc) = Some p) by (unfold make_selection; destruct T as [T|(T & T')]; rewrite T; [exact T|rewrite <- T'; reflexivity]).
    change (if_content f') with cc. rewrite set_cursor_exact; [|exact Vs|rewrite Es; exact Vp]. cbn [bind]. eexists _, true. split; [reflexivity|].
    split.
    + exists (set_cpos (make_selection cc) p'). split; [reflexivity|]. split; [transitivity (clines cc); [exact Es|exact EL]|]. split; [|left; exact Et].
      destruct Vs as (V1 & V2 & V3 & V4). split; [exact V1|]. split; [cbn [set_cpos cpos clines]; rewrite Es; exact Vp|]. split; [exact V3|exact V4].
    + intros c j Hc Hj Na -> ->. split; [exact Et|]. cbn [with_content if_content set_cpos cpos].
      assert (NB : nb_lines f' = nb_lines f) by (unfold nb_lines; change (if_content f') with cc; rewrite EL; reflexivity).
      unfold clicked in K. change (if_area f') with (if_area f) in K. change (if_scroll f') with (if_scroll f) in K. change (if_content f') with cc in K. rewrite NB, EL in K. destruct K as (K1 & l' & El' & K2). split.
      * rewrite K1. f_equal. f_equal. lia.
      * intros l El. rewrite El in El'. injection El' as <-. replace (px (if_scroll f) + N.to_nat (a_left (if_area f) + N.of_nat c - a_left (if_area f))) with (px (if_scroll f) + c) in K2 by lia.
        eapply narrow_first; [|exact K2]. apply Na. eapply nth_error_In. exact El.
  - exists f', false. split; [reflexivity|]. split; [exists cc; auto|]. intros c j Hc Hj _ -> ->. exfalso. pose proof (@inside_area f c j Hc Hj) as I. apply CI in I. discriminate I.
Qed.
Definition drag_to (xy : N * N) : if_op := IfEvent (EMouse (mkMouse (MDrag BLeft) (fst xy) (snd xy) 0)) false.
Lemma drags u f p : field_ok f -> focused f = true -> forall way f', dragged f p f' -> exists f'', if_run u f' (map drag_to way) = Ret f'' /\ dragged f p f''.
Proof.
  intros OK F. induction way as [|(x & y) way IH]; intros f' D; [exists f'; split; [reflexivity|exact D]|]. cbn [map if_run drag_to fst snd if_apply].
  destruct (@drag_step u f p f' 0%N x y false OK F D) as (f1 & b & E & D1 & _). rewrite E. cbn [bind]. apply IH, D1.
Qed.
Lemma if_run_app u : forall a b f, if_run u f (a ++ b) = (f' <- if_run u f a ;; if_run u f' b).
Proof.
  induction a as [|o a IH]; intros b f; cbn [app if_run bind]; [reflexivity|]. destruct (if_apply u f o) as [(f1 & b1)| |]; [|reflexivity|reflexivity]. cbn [bind]. apply IH.
Qed.
(** The mouse is pressed on a char, dragged anywhere, even out of the area, then dragged to a char and released: the cells with the style of the cursor are
    exactly the ones of the chars between the cells of the press and of the release, in the reading order *)
Theorem C105_drag : forall u f c1 j1 way c2 j2, field_ok f -> narrow_text u f -> focused f = true -> on_text f c1 j1 -> on_text f c2 j2 ->
  exists f', if_run u f (IfEvent (press f c1 j1) false :: map drag_to way ++ [IfEvent (drag f c2 j2) false; IfEvent (release f c2 j2) false]) = Ret f'
  /\ only_content f f' /\ field_ok f' /\ narrow_text u f' /\ focused f' = true /\ ctail (if_content f') = Some (place f c1 j1) /\ cpos (if_content f') = place f c2 j2
  /\ (forall c j, field_char f' c j = field_char f c j)
  /\ forall c j, c < text_width f -> j < height f -> (lit f' c j = true <-> on_text f c j /\ between (place f c1 j1) (place f c2 j2) (place f c j) = true).
Proof.
  intros u f c1 j1 way c2 j2 OK Na F O1 O2. pose proof O1 as (C1 & J1 & _). pose proof O2 as (C2 & J2 & LE2 & l2 & El2 & Hl2).
  destruct (@press_done u f c1 j1 false OK Na F C1 J1) as (p & Ap & Vp & E). pose proof (at_text O1 Ap) as Ep. subst p. cbn [if_run if_apply]. rewrite E. cbn [bind].
  set (f1 := with_content f _). assert (D1 : dragged f (place f c1 j1) f1).
  { exists (set_cpos (unselect (if_content f)) (place f c1 j1)). split; [reflexivity|]. split; [reflexivity|]. split; [|right; split; reflexivity].
    apply valid_moved; [exact (valid_unselect (proj1 OK))|exact Vp]. }
  rewrite if_run_app. destruct (@drags u f _ OK F way f1 D1) as (f2 & E2 & D2). rewrite E2. cbn [bind if_run if_apply].
  destruct (@drag_step u f _ f2 0%N (a_left (if_area f) + N.of_nat c2)%N (a_top (if_area f) + N.of_nat j2)%N false OK F D2) as (f3 & b & E3 & D3 & P3). unfold drag at 1, mouse_at. rewrite E3. cbn [bind].
  destruct (P3 c2 j2 C2 J2 Na eq_refl eq_refl) as (T3 & A3). pose proof (at_text O2 A3) as Ec3. destruct D3 as (cc & -> & EL & V & _). cbn [with_content if_content] in T3, Ec3.
  set (f3 := with_content f cc) in *. exists f3.
  assert (R : apply_event u f3 (release f c2 j2) false = Ret (f3, true)).
  { unfold release, mouse_at. cbn [apply_event]. unfold apply_mouse_event. cbn [m_kind m_column m_row m_mods]. change (if_area f3) with (if_area f). change (focused f3) with (focused f).
    rewrite contains_in; [|exact (proj2 (proj2 OK))|apply inside_area; assumption]. cbn [bind]. rewrite F.
    destruct (@cell_pos_spec u f3 (a_left (if_area f) + N.of_nat c2) (a_top (if_area f) + N.of_nat j2)) as (q & Eq & _); [split; [exact V|exact (proj2 OK)]|apply (@inside_area f); assumption|]. rewrite Eq. reflexivity. }
  rewrite R. cbn [bind]. split; [reflexivity|]. split; [exists cc, (if_scroll f); destruct f; reflexivity|]. split; [split; [exact V|exact (proj2 OK)]|].
  split; [unfold narrow_text; cbn [f3 with_content if_content]; rewrite EL; exact Na|]. split; [exact F|]. split; [exact T3|]. split; [exact Ec3|].
  assert (TW : text_width f3 = text_width f) by (unfold text_width, nb_lines; cbn [f3 with_content if_content]; rewrite EL; reflexivity).
  assert (LE : left_ellipsis f3 = left_ellipsis f) by (unfold left_ellipsis; rewrite TW; reflexivity).
  split.
  - intros c j. unfold field_char. rewrite LE, TW. cbn [f3 with_content if_content]. rewrite EL. reflexivity.
  - intros c j Hc Hj. unfold lit. change (focused f3) with (focused f). rewrite F, LE. cbn [f3 with_content if_content andb]. rewrite EL, T3, Ec3. fold f3. change (place f3 c j) with (place f c j). unfold on_text.
    destruct (nth_error (clines (if_content f)) (py (place f c j))) as [l|] eqn:El.
    + destruct (left_ellipsis f && (c =? 0)) eqn:Q.
      * apply andb_prop in Q as (Q1 & Q2). split; [discriminate|]. intros ((_ & _ & X & _) & _). exfalso. apply X; [exact Q1|]. lia.
      * destruct (Nat.ltb_spec (px (place f c j)) (length l)) as [L|L].
        -- split; [|intros (_ & X); exact X]. intros X. split; [|exact X]. split; [exact Hc|]. split; [exact Hj|]. split; [intros Y; rewrite Y in Q; cbn [andb] in Q; lia|]. exists l. auto.
        -- split; [|intros ((_ & _ & _ & l' & E' & L') & _); injection E' as <-; lia]. intros X. apply andb_prop in X as (X & _). unfold pos_eq in X. cbn [py px] in X. apply andb_prop in X as (X1 & X2).
           apply Nat.eqb_eq in X1, X2. exfalso. rewrite X1 in El2. rewrite El in El2. injection El2 as <-. lia.
    + split; [discriminate|]. intros ((_ & _ & _ & l' & E' & _) & _). discriminate E'.
Qed.
Print Assumptions C105_drag.
(** When both are on the same row, the delete and backspace keys then remove exactly the chars of these cells *)
Theorem C105_cut : forall u f c1 way c2 j l k, field_ok f -> narrow_text u f -> focused f = true -> on_text f c1 j -> on_text f c2 j -> c1 <> c2 ->
  nth_error (clines (if_content f)) (py (if_scroll f) + j) = Some l -> k = KDelete \/ k = KBackspace ->
  exists f', if_run u f (IfEvent (press f c1 j) false :: map drag_to way ++ [IfEvent (drag f c2 j) false; IfEvent (release f c2 j) false; IfEvent (EKey k 0) false]) = Ret f'
  /\ field_ok f' /\ ctail (if_content f') = None
  /\ clines (if_content f') = firstn (py (if_scroll f) + j) (clines (if_content f))
       ++ (firstn (px (if_scroll f) + Nat.min c1 c2) l ++ skipn (px (if_scroll f) + Nat.max c1 c2 + 1) l) :: skipn (S (py (if_scroll f) + j)) (clines (if_content f)).
Proof.
  intros u f c1 way c2 j l k OK Na F O1 O2 NE El Hk. destruct (@C105_drag u f c1 j way c2 j OK Na F O1 O2) as (f1 & E & _ & OK1 & _ & F1 & T1 & P1 & _ & _).
  assert (EC : clines (if_content f1) = clines (if_content f)).
  { revert E. clear - OK Na F O1 O2. pose proof O1 as (C1 & J1 & _). pose proof O2 as (C2 & J2 & _). destruct (@press_done u f c1 j false OK Na F C1 J1) as (p & Ap & Vp & E). cbn [if_run if_apply]. rewrite E. cbn [bind].
    set (f1' := with_content f _). assert (D1 : dragged f p f1').
    { exists (set_cpos (unselect (if_content f)) p). split; [reflexivity|]. split; [reflexivity|]. split; [|right; split; reflexivity]. apply valid_moved; [exact (valid_unselect (proj1 OK))|exact Vp]. }
    rewrite if_run_app. destruct (@drags u f _ OK F way f1' D1) as (f2 & E2 & D2). rewrite E2. cbn [bind if_run if_apply].
    destruct (@drag_step u f _ f2 0%N (a_left (if_area f) + N.of_nat c2)%N (a_top (if_area f) + N.of_nat j)%N false OK F D2) as (f3 & b & E3 & D3 & _). unfold drag at 1, mouse_at. rewrite E3. cbn [bind].
    destruct D3 as (cc & -> & EL & V & _). set (f3 := with_content f cc) in *. intros R. assert (f1 = f3); [|subst f1; exact EL].
    assert (R' : apply_event u f3 (release f c2 j) false = Ret (f3, true)).
    { unfold release, mouse_at. cbn [apply_event]. unfold apply_mouse_event. cbn [m_kind m_column m_row m_mods]. change (if_area f3) with (if_area f). change (focused f3) with (focused f).
      rewrite contains_in; [|exact (proj2 (proj2 OK))|apply inside_area; assumption]. cbn [bind]. rewrite F.
      destruct (@cell_pos_spec u f3 (a_left (if_area f) + N.of_nat c2) (a_top (if_area f) + N.of_nat j)) as (q & Eq & _); [split; [exact V|exact (proj2 OK)]|apply (@inside_area f); assumption|]. rewrite Eq. reflexivity. }
    rewrite R' in R. cbn [bind] in R. apply Ret_inj in R. symmetry. exact R. }
  replace (IfEvent (press f c1 j) false :: map drag_to way ++ [IfEvent (drag f c2 j) false; IfEvent (release f c2 j) false; IfEvent (EKey k 0) false])
    with ((IfEvent (press f c1 j) false :: map drag_to way ++ [IfEvent (drag f c2 j) false; IfEvent (release f c2 j) false]) ++ [IfEvent (EKey k 0) false]) by (rewrite <- app_comm_cons, <- app_assoc; reflexivity).
  rewrite if_run_app, E. cbn [bind if_run if_apply apply_event]. rewrite F1. change (N.eqb 0 0) with true. cbn match.
  destruct OK1 as (V1 & AO). set (y := py (if_scroll f) + j) in *. set (sx := px (if_scroll f)) in *.
  assert (SP : clines (if_content f1) = firstn y (clines (if_content f)) ++ l :: skipn (S y) (clines (if_content f))) by (rewrite EC; apply nth_error_split in El as (a & b & -> & <-); rewrite firstn_app, firstn_all, Nat.sub_diag; cbn [firstn]; rewrite app_nil_r; replace (S (length a)) with (length a + 1) by lia; rewrite skipn_app; rewrite skipn_all2 by lia; replace (length a + 1 - length a) with 1 by lia; reflexivity).
  assert (Ly : length (firstn y (clines (if_content f))) = y) by (rewrite firstn_length; assert (y < length (clines (if_content f))) by (apply nth_error_Some; congruence); lia).
  assert (SE : selection (if_content f1) = mkRange (mkPos y (sx + Nat.min c1 c2)) (mkPos y (sx + Nat.max c1 c2))).
  { unfold selection. rewrite T1, P1. unfold place. fold y sx. unfold pos_ltb. cbn [py px]. rewrite Nat.ltb_irrefl, Nat.eqb_refl. cbn [orb andb]. destruct (Nat.ltb_spec (sx + c1) (sx + c2)); f_equal; f_equal; lia. }
  assert (WS : has_wide_selection (if_content f1) = true) by (apply C09_wide_selection; [exact V1|]; rewrite SE; cbn [rmin rmax]; intros Q; injection Q; lia).
  rewrite <- Ly in SE at 1 2. destruct (@C09_row (if_content f1) _ l _ (sx + Nat.min c1 c2) (sx + Nat.max c1 c2) V1 SP SE ltac:(lia)) as (c' & Ed & V' & T' & EL' & _).
  assert (Hl : sx + Nat.max c1 c2 < length l).
  { destruct O1 as (_ & _ & _ & l1 & El1 & H1). destruct O2 as (_ & _ & _ & l2 & El2 & H2). cbn [place py px] in *. fold y sx in El1, El2, H1, H2. rewrite El in El1, El2. injection El1 as <-. injection El2 as <-. lia. }
  exists (with_content f1 c'). split; [destruct Hk as [-> | ->]; cbn [apply_keycode_event]; rewrite WS, Ed; reflexivity|]. split; [split; [exact V'|exact AO]|]. split; [exact T'|]. cbn [with_content if_content].
  rewrite EL'. unfold row_left. rewrite (proj2 (Nat.ltb_lt _ _) Hl). cbn [app]. destruct (firstn y (clines (if_content f))); reflexivity.
Qed.
Print Assumptions C105_cut.

(** A double click on a char of a word: the cells with the style of the cursor are exactly the ones of the chars of its row which are joined to it by
    the chars of a word *)
Theorem C105_double : forall u f c j l, field_ok f -> narrow_text u f -> focused f = true -> on_text f c j ->
  nth_error (clines (if_content f)) (py (place f c j)) = Some l -> word_char_at u l (px (place f c j)) ->
  exists f', apply_event u f (release f c j) true = Ret (f', true) /\ only_content f f' /\ field_ok f' /\ clines (if_content f') = clines (if_content f)
  /\ (forall c' j', field_char f' c' j' = field_char f c' j')
  /\ forall c' j', c' < text_width f -> j' < height f -> (lit f' c' j' = true <-> j' = j /\ on_text f c' j'
       /\ forall i, Nat.min (px (place f c j)) (px (place f c' j')) <= i <= Nat.max (px (place f c j)) (px (place f c' j')) -> word_char_at u l i).
Proof.
  intros u f c j l OK Na F OT El HW. pose proof OT as (Hc & Hj & LE0 & _). destruct (@pointed u f c j OK Na Hc Hj) as (p & Ep & Vp & A1 & A2). pose proof (at_text OT (conj A1 A2)) as Epl. subst p. pose proof OK as (V & AO).
  set (y := py (place f c j)) in *. set (x := px (place f c j)) in *.
  destruct (@C11_select_word u (set_cpos (if_content f) (place f c j)) l (valid_moved V Vp) El) as (_ & SW). destruct (SW HW) as (cc & s & Es & Vc & EL & ET & EY & Hs & W1 & W2 & W3). clear SW.
  cbn [set_cpos cpos clines] in EL, ET, EY, Hs. fold y in ET, EY. fold x in Hs. set (e := px (cpos cc)) in *.
  set (f' := with_content f cc). exists f'. split.
  { unfold release, mouse_at. cbn [apply_event]. unfold apply_mouse_event. cbn [m_kind m_column m_row m_mods]. rewrite contains_in; [|exact (proj2 AO)|apply inside_area; assumption]. cbn [bind]. rewrite F, Ep. cbn [bind].
    rewrite set_cursor_exact by assumption. cbn [bind]. rewrite Es. reflexivity. }
  split; [exists cc, (if_scroll f); destruct f; reflexivity|]. split; [split; [exact Vc|exact AO]|]. split; [exact EL|].
  assert (TW : text_width f' = text_width f) by (unfold text_width, nb_lines; cbn [f' with_content if_content]; rewrite EL; reflexivity).
  assert (LE : left_ellipsis f' = left_ellipsis f) by (unfold left_ellipsis; rewrite TW; reflexivity).
  split; [intros c' j'; unfold field_char; rewrite LE, TW; cbn [f' with_content if_content]; rewrite EL; reflexivity|].
  intros c' j' Hc' Hj'. unfold lit. change (focused f') with (focused f). rewrite F, LE. cbn [f' with_content if_content andb]. rewrite EL, ET. fold f'. change (place f' c' j') with (place f c' j'). unfold on_text.
  assert (Pe : cpos cc = mkPos y e) by (unfold e; rewrite <- EY; destruct (cpos cc); reflexivity). rewrite Pe.
  assert (EyC : y = py (if_scroll f) + j) by reflexivity. assert (ExC : x = px (if_scroll f) + c) by reflexivity. clearbody y x e. cbn [place py px].
  assert (We : e < length l) by (destruct (W1 e ltac:(lia)) as (ch & Q & _); apply nth_error_Some; congruence).
  destruct (nth_error (clines (if_content f)) (py (if_scroll f) + j')) as [l'|] eqn:El'.
  2:{ split; [discriminate|]. intros (-> & _). rewrite EyC in El. congruence. }
  destruct (left_ellipsis f && (c' =? 0)) eqn:Q.
  { apply andb_prop in Q as (Q1 & Q2). split; [discriminate|]. intros (_ & (_ & _ & X & _) & _). exfalso. apply X; [exact Q1|]. lia. }
  destruct (Nat.ltb_spec (px (if_scroll f) + c') (length l')) as [L|L].
  - unfold between, pos_le, place. cbn [py px]. split.
    + intros X. assert (Ey : py (if_scroll f) + j' = y /\ s <= px (if_scroll f) + c' <= e) by lia. destruct Ey as (Ey & R). split; [lia|]. split.
      * split; [exact Hc'|]. split; [exact Hj'|]. split; [intros Y; rewrite Y in Q; cbn [andb] in Q; lia|]. exists l'. auto.
      * intros i I. apply W1. lia.
    + intros (-> & _ & W). assert (R : s <= px (if_scroll f) + c' <= e); [|lia]. split.
      * destruct (Nat.le_gt_cases s (px (if_scroll f) + c')) as [G|G]; [exact G|exfalso]. destruct s as [|s']; [lia|]. apply (W2 s' eq_refl). apply W. lia.
      * destruct (Nat.le_gt_cases (px (if_scroll f) + c') e) as [G|G]; [exact G|exfalso]. apply W3. apply W. lia.
  - split.
    + intros X. apply andb_prop in X as (X & _). unfold pos_eq in X. cbn [py px] in X. apply andb_prop in X as (X1 & X2). apply Nat.eqb_eq in X1, X2. exfalso. rewrite <- X1 in El'. rewrite El in El'. injection El' as <-. lia.
    + intros (_ & (_ & _ & _ & l0 & E0 & L0) & _). injection E0 as <-. lia.
Qed.
Print Assumptions C105_double.

(** "some words to read" in 12 columns, after the end key, is seen as "…ds to read " *)
Definition pointing : outcome InputField := if_run demo (demo_field 12 2) [IfSetStr [115; 111; 109; 101; 32; 119; 111; 114; 100; 115; 32; 116; 111; 32; 114; 101; 97; 100; 10; 111; 107]%N; IfUp; IfToLineEnd].
Lemma narrow_dec u f : forallb (forallb (fun c => columns u [c] =? 1)) (clines (if_content f)) = true -> narrow_text u f.
Proof. intros H l I c J. rewrite forallb_forall in H. specialize (H l I). rewrite forallb_forall in H. specialize (H c J). apply Nat.eqb_eq. exact H. Qed.
Example C105_example : exists f, pointing = Ret f /\ field_ok f /\ narrow_text demo f /\ focused f = true /\ on_text f 1 0 /\ on_text f 4 0
  /\ map (fun c => field_char f c 0) (seq 0 12) = [8230; 100; 115; 32; 116; 111; 32; 114; 101; 97; 100; 32]%N /\ map (fun c => lit f c 0) (seq 0 12) = repeat false 11 ++ [true]
  /\ (exists f' out p, if_run demo f [IfEvent (press f 4 0) false; drag_to (0, 0)%N; IfEvent (drag f 1 0) false; IfEvent (release f 1 0) false] = Ret f'
      /\ map (fun c => lit f' c 0) (seq 0 12) = [false; true; true; true; true] ++ repeat false 7
      /\ display_on demo f' = Ret (out, p) /\ t_cell (term_run demo (mkTerm (fun _ _ => Nothing Reset) 0 0 pen0) out) 5 4 = Part 115%N 0 (worn (Some (cursor_style f'))))
  /\ (exists f' , if_run demo f [IfEvent (press f 4 0) false; IfEvent (drag f 1 0) false; IfEvent (release f 1 0) false; IfEvent (EKey KDelete 0) false] = Ret f'
      /\ clines (if_content f') = [[115; 111; 109; 101; 32; 119; 111; 114; 111; 32; 114; 101; 97; 100]; [111; 107]]%N)
  /\ (exists f' , apply_event demo f (release f 8 0) true = Ret (f', true) /\ map (fun c => lit f' c 0) (seq 0 12) = repeat false 7 ++ [true; true; true; true; false]).
Proof.
  eexists. split; [vm_compute; reflexivity|]. split; [split; [apply validb_ok; vm_compute; reflexivity|split; vm_compute; [discriminate|split; reflexivity]]|].
  split; [apply narrow_dec; vm_compute; reflexivity|]. split; [reflexivity|].
  split; [split; [vm_compute; lia|]; split; [vm_compute; lia|]; split; [discriminate|]; eexists; split; [reflexivity|vm_compute; lia]|].
  split; [split; [vm_compute; lia|]; split; [vm_compute; lia|]; split; [discriminate|]; eexists; split; [reflexivity|vm_compute; lia]|].
  split; [vm_compute; reflexivity|]. split; [vm_compute; reflexivity|]. split.
  - eexists _, _, _. split; [vm_compute; reflexivity|]. split; [vm_compute; reflexivity|]. split; vm_compute; reflexivity.
  - split; eexists; split; vm_compute; reflexivity.
Qed.
