(** * What is read in the cells of a table on the terminal is the table (C99) *)
From Verif Require Import Base L_Base M_Style M_Fit M_Wrap M_TblFit S_Wrap M_Text S_Text L_Text L_Text2 M_Fitter M_View S_View M_Render S_Render L_Render M_Area S_Input S_Pen S_Area S_Paint S_Border S_Read S_Cells L_Clean L_View Demo.
From Verif Require Import P_Wrap P_Text P_Render P_Local S_Local P_Area P_Paint P_Read P_Border.
From Verif Require P_Block.
Set Implicit Arguments.
Open Scope nat_scope.

(** ** Reading a part of a row *)

Lemma tiles_app u y : forall a b from to, tiles u y from (a ++ b) to -> tiles u y from a (from + sumw (chw u) (map s_char a)) /\ tiles u y (from + sumw (chw u) (map s_char a)) b to.
Proof.
  induction a as [|s a IH]; intros b from to H; cbn [app map sumw tiles] in *; [rewrite Nat.add_0_r; auto|]. destruct H as (H1 & H2 & H3). apply IH in H3 as (H3 & H4). rewrite sumw_cons, Nat.add_assoc. auto.
Qed.
Lemma part_drawn u out t x0 y0 w rows : clean out -> screen u (t_x t) (t_y t) out = concat rows ->
  (forall j row, nth_error rows j = Some row -> tiles u (y0 + j) x0 row (x0 + w)) ->
  forall j row A M B, nth_error rows j = Some row -> map s_char row = A ++ M ++ B ->
  read_row (term_run u t out) (x0 + sumw (chw u) A) (y0 + j) (sumw (chw u) M) = seen_chars u M.
Proof.
  intros C E T j row A M B R Er. rewrite <- (marks_spots u out (t_x t) (t_y t) (t_pen t)) in E. destruct (split_map _ _ _ E) as (ms & Em & <-). rewrite nth_error_map in R.
  destruct (nth_error ms j) as [m|] eqn:Mj; [|discriminate R]. injection R as <-.
  assert (T' : forall i r, nth_error ms i = Some r -> tiles u (y0 + i) x0 (map fst r) (x0 + w)) by (intros i r I; apply T; rewrite nth_error_map, I; reflexivity).
  pose proof (T' j m Mj) as Tm. rewrite map_map in Er. apply map_eq_app in Er as (ma & mr & -> & EA & Er). apply map_eq_app in Er as (mm & mb & -> & EM & EB).
  rewrite <- (map_map fst s_char) in EA, EM. pose proof Tm as Tm'. rewrite !map_app in Tm'. apply tiles_app in Tm' as (Ta & Tm'). apply tiles_app in Tm' as (Tmm & Tb). rewrite EA in *. rewrite EM in *.
  rewrite <- EM at 2. rewrite <- (@read_tiles _ _ _ _ _ Tmm). match goal with |- context [?a + ?b - ?a] => replace (a + b - a) with b by lia end.
  unfold read_row. rewrite !flat_map_concat_map. f_equal. apply map_ext_in. intros x I. apply in_seq in I. pose proof (@tiles_from _ _ _ _ _ Tb) as Lb.
  rewrite run_cells by exact C. rewrite <- Em. unfold read_mark.
  assert (K : forall x, x0 <= x < x0 + w -> exists s, In s (map fst (ma ++ mm ++ mb)) /\ covers u s x (y0 + j)) by (intros x' X; apply (@tiles_cover u _ _ _ _ Tm); lia).
  rewrite (@read_concat u y0 w x0 ms j _ Mj) with (x := x); [|intros i r Q; eauto|exact K|lia].
  rewrite !last_mark_app. replace (last_mark u x (y0 + j) mb) with (@None seen).
  2:{ symmetry. apply last_mark_none. intros X. apply (@tiles_cover u _ _ _ _ Tb) in X. lia. }
  destruct (last_mark u x (y0 + j) mm) eqn:L; [reflexivity|]. exfalso. apply last_mark_none in L. apply L. apply (@tiles_cover u _ _ _ _ Tmm). lia.
Qed.

(** The cell of a spot, with its look *)
Lemma spot_seen u out t x0 y0 w rows : clean out -> faithful out -> t_pen t = pen0 -> screen u (t_x t) (t_y t) out = concat rows ->
  (forall j row, nth_error rows j = Some row -> tiles u (y0 + j) x0 row (x0 + w)) ->
  forall j A s B i, nth_error rows j = Some (A ++ s :: B) -> i < chw u (s_char s) ->
  t_cell (term_run u t out) (x0 + sumw (chw u) (map s_char A) + i) (y0 + j) = Part (s_char s) i (worn (s_style s)).
Proof.
  intros C F P E T j A s B i R L. rewrite run_cells by exact C. rewrite P, marks_screen by assumption. rewrite E, concat_map.
  pose proof (T j _ R) as Tm. pose proof Tm as Tm'. apply tiles_app in Tm' as (Ta & Tm'). cbn [tiles] in Tm'. destruct Tm' as (Sy & Sx & Tb). pose proof (@tiles_from _ _ _ _ _ Tb) as Lb.
  set (x := x0 + sumw (chw u) (map s_char A) + i). set (g := fun s : spot => (s, worn (s_style s))).
  assert (Mf : forall l, map fst (map g l) = l) by (intros l; rewrite map_map; cbn [g fst]; apply map_id).
  rewrite (@read_concat u y0 w x0 (map (map g) rows) j (map g (A ++ s :: B))).
  - rewrite map_app. cbn [map]. change (map g A ++ g s :: map g B) with (map g A ++ ([g s] ++ map g B)). rewrite !last_mark_app.
    replace (last_mark u x (y0 + j) (map g B)) with (@None seen).
    2:{ symmetry. apply last_mark_none. rewrite Mf. intros X. apply (@tiles_cover u _ _ _ _ Tb) in X. unfold x in X. lia. }
    cbn [g last_mark]. unfold mark_at. rewrite (proj2 (Nat.eqb_eq _ _) (eq_sym Sy)), (proj2 (Nat.leb_le (s_x s) x)), (proj2 (Nat.ltb_lt x _)) by (unfold x; lia). cbn [andb]. f_equal. unfold x. lia.
  - rewrite nth_error_map, R. reflexivity.
  - intros i' r H. rewrite nth_error_map in H. destruct (nth_error rows i') as [r'|] eqn:Er; [|discriminate H]. injection H as <-. rewrite Mf. eauto.
  - intros x' X. rewrite Mf. apply (@tiles_cover u _ _ _ _ Tm). lia.
  - unfold x. lia.
Qed.

(** ** The cells of a row *)
Lemma composite_read u k c d : is_white u 32%N = true -> fc_kind c = KParagraph -> composite_drawn no_special k c None false false d -> visible u (map fst d) = visible u (text_of (fc_compounds c)).
Proof.
  intros W K (ls & lm & rm & lp & rp & li & ri & _ & _ & _ & _ & ->). rewrite K. cbn [mark_drawn]. rewrite !map_app, !visible_app. rewrite !visible_blanks by exact W. cbn [app map visible filter]. rewrite app_nil_r.
  f_equal. induction (fc_compounds c) as [|x cs IH]; [reflexivity|]. cbn [flat_map text_of]. rewrite map_app. unfold compound_drawn at 1. cbn [no_special]. unfold text_of in IH. rewrite IH, map_map. cbn [fst]. rewrite map_id. reflexivity.
Qed.
Lemma row_cell u k cells ds j c : narrow_chars u k -> Forall (in_room u k) cells ->
  Forall2 (fun c dc => composite_drawn no_special k c None false false dc) cells ds -> nth_error cells j = Some c ->
  let v := (vertical (table_border_chars k), ls_cs (table k)) in
  exists a m b, flat_map (fun dc => v :: dc) ds ++ [v] = a ++ m ++ b /\ drawn_width u a = edge (map room cells) j + 1 /\ drawn_width u m = room c /\ composite_drawn no_special k c None false false m.
Proof.
  intros Hn Hr HF Hj v. assert (Hv : chw u (fst v) = 1) by (cbn [v fst]; narrow Hn). assert (Hs : same_widths u no_special) by (intros ? ? X; discriminate X). revert j Hj. induction HF as [|c0 d cells ds Hc _ IH]; intros j Hj; [destruct j; discriminate|].
  inversion Hr as [|? ? Hr1 Hr2]; subst. destruct (composite_width Hn Hs Hr1 Hc) as (ls & lm & rm & lp & rp & _ & [M _] & So & W). specialize (M eq_refl). cbn [shared_opt] in So.
  destruct j as [|j]; cbn [nth_error] in Hj.
  - injection Hj as ->. exists [v], d, (flat_map (fun dc => v :: dc) ds ++ [v]). split; [cbn [flat_map app]; rewrite <- app_assoc; reflexivity|]. split; [rewrite width_cons, Hv; reflexivity|]. split; [lia|exact Hc].
  - destruct (IH Hr2 j Hj) as (a & m & b & E & W1 & W2 & Cm). exists (v :: d ++ a), m, b. split; [cbn [flat_map app]; rewrite <- !app_assoc; f_equal; f_equal; exact E|]. split; [|auto].
    rewrite width_cons, width_app, Hv, W1, W. cbn [map]. rewrite edge_S. lia.
Qed.

(** ** From the source of a table to its lines *)
Lemma thinned_visible u A (s d : list (char * A)) : thinned u s d -> visible u (map fst d) = visible u (map fst s).
Proof. induction 1 as [|c s d _ IH|c s d Hc _ IH]; [reflexivity|..]; cbn [map visible filter] in *; unfold visible in IH; [rewrite IH; reflexivity|]. rewrite Hc. exact IH. Qed.
Lemma text_styled cs : text_of cs = map fst (S_Wrap.styled cs).
Proof. unfold S_Wrap.styled, text_of. induction cs as [|c cs IH]; [reflexivity|]. cbn [flat_map]. rewrite map_app, <- IH, map_map. cbn [fst]. rewrite map_id. reflexivity. Qed.
Lemma visible_map u A (l : list (char * A)) : map fst (visible_of u l) = visible u (map fst l).
Proof. unfold visible_of, visible. induction l as [|c l IH]; [reflexivity|]. cbn [map filter]. destruct (negb (is_white u (fst c)) && (0 <? chw u (fst c))); cbn [map]; rewrite IH; reflexivity. Qed.
Lemma visible_of_app u A (a b : list (char * A)) : visible_of u (a ++ b) = visible_of u a ++ visible_of u b.
Proof. apply filter_app. Qed.
Lemma visible_kept u A (l : list (char * A)) : visible_of u l = filter (fun c => 0 <? chw u (fst c)) (filter (fun c => negb (is_white u (fst c))) l).
Proof. unfold visible_of. induction l as [|c l IH]; [reflexivity|]. cbn [filter]. destruct (is_white u (fst c)); cbn [negb andb filter]; rewrite IH; reflexivity. Qed.
Lemma visible_of_flat u A B (f : A -> list (char * B)) l : visible_of u (flat_map f l) = flat_map (fun x => visible_of u (f x)) l.
Proof. induction l as [|x l IH]; [reflexivity|]. cbn [flat_map]. rewrite visible_of_app, IH. reflexivity. Qed.
(** The source of a cell, with its flags *)
Definition source_styled (j : nat) (l : MLine) : list (char * (bool * bool * bool * bool)) :=
  match l with MTableRow cells => match nth_error cells j with Some c => S_Wrap.styled (mc_compounds c) | None => [] end | _ => [] end.
Lemma source_text j l : map fst (source_styled j l) = source_cell j l.
Proof. destruct l; try reflexivity. cbn. destruct (nth_error _ _); [symmetry; apply text_styled|reflexivity]. Qed.
(** The lines replacing a row of paragraphs *)
Lemma replaces_row u k ws cells g : replaces u k ws (TableRow cells) g -> length cells <= length ws -> Forall (has_columns ws) g -> Forall (fun c => fc_kind c = KParagraph) cells ->
  1 <= length g /\ Forall (fun l => exists row, l = TableRow row /\ Forall (fun c => fc_kind c = KParagraph) row) g
  /\ forall i, i < length ws -> flat_map (fun c => visible_of u (S_Wrap.styled (fc_compounds c))) (column i g) = visible_of u (match nth_error cells i with Some c => S_Wrap.styled (fc_compounds c) | None => [] end).
Proof.
  intros (css & HF & Hg & Hrow & Hcol & Hno) Hl Hcs HK. split; [lia|].
  pose proof (Forall2_len HF) as Hlc. rewrite combine_length in Hlc.
  assert (HC : forall i c ls, nth_error cells i = Some c -> nth_error css i = Some ls -> exists w, in_column u k w c ls).
  { intros i c ls Ec El. assert (Hi : i < length cells) by (apply nth_error_Some; congruence). assert (exists w, nth_error (combine cells ws) i = Some (c, w)) as (w & Ew).
    { clear - Ec Hi Hl. revert ws i Ec Hi Hl. induction cells as [|x cells IH]; intros [|w ws] [|i]; cbn; try discriminate; try lia; [intros H; injection H as ->; eauto|]. intros Ec Hi Hl. apply IH; [exact Ec|lia|lia]. }
    exists w. clear - HF Ew El. revert i Ew El. induction HF as [|x y l l' H _ IH]; intros [|i]; cbn; try discriminate; [|apply IH]. intros E E'. injection E as ->. injection E' as ->. exact H. }
  assert (KC : forall i, Forall (fun c => fc_kind c = KParagraph) (column i g)).
  { intros i. destruct (Nat.lt_ge_cases i (length cells)) as [L|L].
    - destruct (nth_error cells i) as [c|] eqn:Ec; [|apply nth_error_None in Ec; lia]. destruct (nth_error css i) as [ls|] eqn:El; [|apply nth_error_None in El; lia].
      destruct (Hcol i ls El) as (_ & Hk & _). assert (Kc : fc_kind c = KParagraph) by (rewrite Forall_forall in HK; apply HK; eapply nth_error_In; exact Ec).
      assert (Kl : Forall (fun c => fc_kind c = KParagraph) ls).
      { destruct (HC i c ls Ec El) as (w & [(_ & ->)|(_ & E)]); [repeat constructor; exact Kc|]. destruct (@C25_kinds _ _ _ _ _ E) as (first & others & -> & K1 & K2 & _). rewrite Kc in *. constructor; [exact K1|]. exact K2. }
      assert (X : Forall (fun x => x = KParagraph) (map fc_kind (column i g))).
      { rewrite Hk. apply Forall_app. split; [apply Forall_forall; intros x Hx; apply in_map_iff in Hx as (y & <- & Hy); rewrite Forall_forall in Kl; auto|]. apply Forall_forall. intros x Hx. apply repeat_spec in Hx. exact Hx. }
      apply Forall_forall. intros x Hx. rewrite Forall_forall in X. apply X. apply in_map, Hx.
    - eapply Forall_impl; [|apply (Hno i L)]. intros c (_ & H & _). exact H. }
  split.
  - apply Forall_forall. intros l Hl0. rewrite Forall_forall in Hrow. destruct (Hrow l Hl0) as (row & ->). exists row. split; [reflexivity|]. apply Forall_forall. intros c Hc. apply In_nth_error in Hc as (i & Ei).
    specialize (KC i). rewrite Forall_forall in KC. apply KC. unfold column. apply in_flat_map. exists (TableRow row). split; [exact Hl0|]. rewrite Ei. left. reflexivity.
  - intros i Hi.
    assert (Hmap : forall a b : list FmtComposite, map fc_compounds a = map fc_compounds b -> flat_map (fun c => visible_of u (S_Wrap.styled (fc_compounds c))) a = flat_map (fun c => visible_of u (S_Wrap.styled (fc_compounds c))) b).
    { intros a b Eab. rewrite !flat_map_concat_map. f_equal. rewrite <- (map_map fc_compounds (fun c => visible_of u (S_Wrap.styled c))), Eab, map_map. reflexivity. }
    destruct (nth_error cells i) as [c|] eqn:Ec.
    + assert (i < length cells) by (apply nth_error_Some; congruence). destruct (nth_error css i) as [ls|] eqn:El; [|apply nth_error_None in El; lia].
      destruct (Hcol i ls El) as (Hc & _). rewrite (Hmap _ (ls ++ repeat fc_new (length g - length ls))).
      2:{ rewrite map_app, Hc. f_equal. clear. induction (length g - length ls); cbn; congruence. }
      rewrite flat_map_app. replace (flat_map _ (repeat fc_new _)) with (@nil (char * (bool * bool * bool * bool))) by (clear; induction (length g - length ls); cbn; congruence).
      rewrite app_nil_r. destruct (HC i c ls Ec El) as (w & [(_ & ->)|(_ & E)]); [cbn [flat_map]; apply app_nil_r|].
      rewrite <- visible_of_flat, !visible_kept. f_equal. eapply C24_non_blank_kept. exact E.
    + apply nth_error_None in Ec. specialize (Hno i Ec). clear - Hno. induction Hno as [|c l (Hc & _) _ IH]; [reflexivity|]. cbn [flat_map]. rewrite Hc. exact IH.
Qed.
(** How the lines [g] show the source line [l] of a table whose columns have the widths [ws] *)
Definition shows_source (u : unicode) (ws : list nat) (l : MLine) (g : list FmtLine) : Prop :=
  match l with
  | MTableRow _ => 1 <= length g /\ Forall (fun l => exists row, l = TableRow row /\ Forall (fun c => fc_kind c = KParagraph) row) g
      /\ forall j, j < length ws -> flat_map (fun c => visible_of u (S_Wrap.styled (fc_compounds c))) (column j g) = visible_of u (source_styled j l)
  | _ => exists r, g = [TableRule r]
  end.
Lemma table_lines u k um w tb t : additive u -> (forall c, chw u c <= 2) -> 5 <= w -> tb <> [] -> Forall (fun l => of_table l = true) tb -> Forall (area_source u k w) tb ->
  from_text u k um tb (Some w) = Ret t ->
  exists ws gs, length ws = source_columns tb /\ Forall (fun w => 3 <= w) ws /\ table_line_width ws <= w /\ ws <> [] /\ txt_lines t = concat gs /\ Forall (has_columns ws) (txt_lines t) /\ Forall (line_in_room u k) (txt_lines t)
  /\ Forall2 (shows_source u ws) tb gs.
Proof.
  intros Hu H2 Hw Hne Htb Hsrc E.
  assert (Hroom : Forall (fun l => is_table l = true -> line_in_room u k l) (txt_lines t)).
  { assert (Hfit : Forall (fitting_source u k w) tb) by (eapply Forall_impl; [|exact Hsrc]; intros l; apply source_fitting, H2).
    pose proof (text_tables um Hu Hw E Hfit) as H. clear - H. induction H as [|l a Hl _ IH|tb a Hne Ht Ha (ws & Hws & Hp & Hr) _ IH]; [constructor|constructor; [congruence|exact IH]|].
    apply Forall_app. split; [eapply Forall_impl; [|exact Hr]; auto|exact IH]. }
  set (tl := map (line_from u k) tb) in *.
  assert (Ht : Forall (fun l => is_table l = true) tl).
  { apply Forall_forall. intros l Hl. apply in_map_iff in Hl as (m & <- & Hm). rewrite Forall_forall in Htb. specialize (Htb _ Hm). destruct m; try discriminate; reflexivity. }
  assert (Hcols : table_cols tl = source_columns tb).
  { unfold table_cols, source_columns, tl. rewrite map_map. f_equal. apply map_ext. intros []; try reflexivity. cbn [line_from cols_asked]. apply map_length. }
  assert (Hc : 0 < table_cols tl /\ 4 * table_cols tl + 1 <= w).
  { rewrite Hcols. unfold source_columns. split.
    - destruct tb as [|l tb]; [congruence|]. cbn [map fold_right]. inversion Hsrc as [|? ? S1 _]; subst. inversion Htb as [|? ? T1 _]; subst.
      destruct l as [c|cells|als| |]; try discriminate; cbn [area_source] in S1; [destruct cells|destruct als]; destruct S1; try congruence; cbn [length]; lia.
    - clear - Hsrc Hw. induction Hsrc as [|l tb S1 _ IH]; cbn [map fold_right]; [lia|]. 
      assert (4 * match l with MTableRow cells => length cells | MTableRule als => length als | _ => 0 end + 1 <= w); [|lia]. destruct l as [c|cells|als| |]; cbn [area_source] in S1; lia. }
  destruct Hc as (Hc0 & Hcw).
  unfold from_text in E. apply bind_Ret_inv in E as (l1 & E1 & E). fold tl in E1. destruct (Nat.leb_spec 3 w); [|lia]. apply bind_Ret_inv in E as ([l3|] & E3 & E); [|discriminate]. injection E as <-. cbn [txt_lines] in *.
  apply fix_all_iff in E1. apply by_runs_one in E1; [|destruct tb; [congruence|discriminate]|exact Ht].
  destruct (laid_replaces Ht E1 Hc0 ltac:(lia)) as (ws & gs & Hlen & Hcs & -> & HR). unfold shown_cols in Hlen. destruct (Nat.leb_spec (4 * table_cols tl + 1) w); [|lia].
  assert (Hnc : Forall (fun l => is_table l = true) (concat gs)) by (eapply Forall_impl; [|exact Hcs]; intros []; cbn; tauto).
  assert (J : justify_blocks (concat gs) = concat gs).
  { eapply P_Block.runs_none; [apply C34_justified|]. eapply Forall_impl; [|exact Hnc]. intros []; cbn; congruence. }
  rewrite J in E3. apply C26_lines in E3 as (gs' & -> & HF).
  assert (X : concat gs' = concat gs).
  { clear - HF Hnc. revert Hnc. induction HF as [|l g ls gs0 H' _ IH]; intros Hnc; [reflexivity|]. inversion Hnc as [|? ? N1 N2]; subst. cbn [concat]. rewrite IH by exact N2. destruct l; try discriminate; subst g; reflexivity. }
  rewrite X in *. exists ws, gs. split; [congruence|].
  destruct (laid_shape Ht E1 Hc0 ltac:(lia)) as (ws' & _ & G3 & Gs & Gc & _).
  assert (ws' = ws) as ->.
  { assert (Hne' : concat gs <> []).
    { destruct tb as [|l0 tb0]; [congruence|]. inversion HR as [|? g ? ? Hg _]; subst. cbn [concat]. destruct g; [|discriminate]. inversion Ht as [|? ? T0 _]; subst.
      destruct (line_from u k l0) as [|cells|r|]; cbn [replaces] in Hg; try tauto; [destruct Hg as (css & _ & Hlen0 & _); cbn [length] in Hlen0; lia|destruct Hg as (r' & D & _); discriminate D]. }
    destruct (concat gs) as [|x xs]; [congruence|]. inversion Hcs as [|? ? A1 _]; subst. inversion Gc as [|? ? A2 _]; subst. destruct x as [|cells|r|]; cbn [has_columns] in A1, A2; try tauto; [|destruct A1, A2; congruence].
    apply columns_room in A1, A2. congruence. }
  split; [exact G3|]. split; [exact Gs|]. split; [intros ->; cbn in Hlen; lia|]. split; [reflexivity|]. split; [exact Hcs|]. split.
  { apply Forall_forall. intros l Hl. rewrite Forall_forall in Hroom, Hnc. auto. }
  pose proof (cols_asked_le tl) as Hle. rewrite <- Hlen in Hle. unfold tl in HR, Hle. clear - HR Hcs Hsrc Htb Hle. revert gs HR Hcs. induction tb as [|l tb IH]; intros gs HR Hcs; inversion HR as [|? g ? gs0 Hg HR']; subst; constructor.
  - inversion Htb as [|? ? T1 _]; subst. inversion Hsrc as [|? ? S1 _]; subst. inversion Hle as [|? ? L1 _]; subst. cbn [concat] in Hcs. apply Forall_app in Hcs as (C1 & _).
    destruct l as [c|cells|als| |]; try discriminate; cbn [line_from shows_source cols_asked] in *.
    + destruct (@replaces_row u k ws _ g Hg L1 C1) as (R1 & R2 & R3).
      { destruct S1 as (_ & _ & S1). apply Forall_forall. intros x Hx. apply in_map_iff in Hx as (c & <- & Hc). rewrite Forall_forall in S1. apply S1, Hc. }
      split; [exact R1|]. split; [exact R2|]. intros j Hj. rewrite (R3 j Hj). cbn [source_styled]. rewrite nth_error_map. destruct (nth_error cells j); reflexivity.
    + destruct Hg as (r & -> & _). eauto.
  - inversion Htb; inversion Hsrc; inversion Hle; subst. cbn [concat] in Hcs. apply Forall_app in Hcs as (_ & C2). apply IH; assumption.
Qed.

(** ** Reading the lines of a table *)
Lemma columns_length ws row : has_columns ws (TableRow row) -> length row = length ws.
Proof. cbn [has_columns]. intros H. exact (Forall2_len H). Qed.
Lemma room_nth ws row j c : has_columns ws (TableRow row) -> nth_error row j = Some c -> room c = nth j ws 0.
Proof. intros H E. pose proof (columns_room H) as R. rewrite <- R. symmetry. apply nth_error_nth. rewrite nth_error_map, E. reflexivity. Qed.
Lemma flat_nth A B (F : nat -> list B) (G : A -> list B) : forall g n, (forall i l, nth_error g i = Some l -> F (n + i) = G l) -> flat_map (fun i => F (n + i)) (seq 0 (length g)) = flat_map G g.
Proof.
  induction g as [|l g IH]; intros n H; [reflexivity|]. cbn [length seq flat_map]. rewrite (H 0 l eq_refl). f_equal. rewrite <- seq_shift.
  replace (flat_map (fun i => F (n + i)) (map S (seq 0 (length g)))) with (flat_map (fun i => F (S n + i)) (seq 0 (length g))).
  - apply IH. intros i x Hx. replace (S n + i) with (n + S i) by lia. apply H. exact Hx.
  - rewrite !flat_map_concat_map, map_map. f_equal. apply map_ext. intros i. f_equal. lia.
Qed.
Lemma visible_flat A u (f : A -> str) l : visible u (flat_map f l) = flat_map (fun x => visible u (f x)) l.
Proof. induction l as [|x l IH]; [reflexivity|]. cbn [flat_map]. rewrite visible_app, IH. reflexivity. Qed.
Lemma rule_text_seen u k ws pos : narrow_chars u k -> ws <> [] -> sumw (chw u) (rule_text k ws pos) = table_line_width ws /\ seen_chars u (rule_text k ws pos) = rule_text k ws pos.
Proof.
  intros Hn Hws. assert (X : forall l m r, chw u l = 1 -> chw u m = 1 -> chw u r = 1 -> sumw (chw u) (map fst (rule_drawn k l m r ws)) = table_line_width ws /\ seen_chars u (map fst (rule_drawn k l m r ws)) = map fst (rule_drawn k l m r ws)).
  { intros l m r Hl Hm Hr. assert (Hh : chw u (horizontal (table_border_chars k)) = 1) by (narrow Hn). split.
    - pose proof (rule_width u k l m r ws Hl Hm Hr Hh) as E. unfold drawn_width in E. rewrite E. destruct ws; [congruence|reflexivity].
    - rewrite rule_seq_ok by exact Hws. cbv zeta. revert l Hl. clear Hws. induction ws as [|w ws IH]; intros l Hl; cbn [rule_seq map fst].
      + unfold seen_chars. cbn [filter]. rewrite Hr. reflexivity.
      + unfold seen_chars. cbn [filter]. rewrite Hl. change (0 <? 1) with true. cbv iota. f_equal. rewrite map_app, filter_app. fold (seen_chars u (map fst (rule_seq (horizontal (table_border_chars k), ls_cs (table k)) (m, ls_cs (table k)) (r, ls_cs (table k)) (m, ls_cs (table k)) ws))). f_equal; [|apply IH, Hm].
        clear - Hh. induction w as [|w IH]; [reflexivity|]. cbn [repeat map fst filter]. rewrite Hh. change (0 <? 1) with true. cbv iota. f_equal. exact IH. }
  unfold rule_text. destruct pos; apply X; narrow Hn.
Qed.
Lemma lines_read u k tm out rows x0 y0 W w s sb lines LA gs LB ws tb :
  narrow_chars u k -> is_white u 32%N = true -> ws <> [] ->
  clean out -> screen u (t_x tm) (t_y tm) out = concat rows ->
  (forall j row, nth_error rows j = Some row -> tiles u (y0 + j) x0 row (x0 + W) /\ shows_row u no_special k lines w s sb y0 j row) ->
  lines = LA ++ concat gs ++ LB -> Forall (has_columns ws) (concat gs) -> Forall (line_in_room u k) (concat gs) -> Forall2 (shows_source u ws) tb gs ->
  forall i l g, nth_error tb i = Some l -> nth_error gs i = Some g -> let n := length LA + length (concat (firstn i gs)) in
  s <= n -> n + length g <= s + length rows ->
  reads_source u k (term_run u tm out) ws l (x0 + fst (optional_completions (ls_align (table k)) (table_line_width ws) (Some w))) (y0 + (n - s)) (length g).
Proof.
  intros Hn Wh Hws C E H Hl Hc Hr HS i l g Ei Eg n L1 L2.
  destruct (optional_completions (ls_align (table k)) (table_line_width ws) (Some w)) as [lp rp] eqn:Eo. pose proof (shared_opt_spec (ls_align (table k)) (table_line_width ws) (Some w)) as So. rewrite Eo in So. cbn [fst].
  assert (Hs : same_widths u no_special) by (intros ? ? X; discriminate X).
  assert (Hin : forall d x, nth_error g d = Some x -> nth_error lines (n + d) = Some x /\ In x (concat gs)).
  { intros d x Ex. apply nth_error_split in Eg as (g1 & g2 & -> & Lg). subst i. subst n.
    replace (firstn (length g1) (g1 ++ g :: g2)) with g1 by (rewrite firstn_app, firstn_all, Nat.sub_diag; cbn; symmetry; apply app_nil_r).
    split; [|rewrite concat_app; apply in_or_app; right; cbn [concat]; apply in_or_app; left; eapply nth_error_In; exact Ex].
    rewrite Hl, concat_app. cbn [concat]. rewrite nth_error_app2 by lia. rewrite <- !app_assoc. rewrite nth_error_app2 by lia. rewrite nth_error_app1 by (assert (d < length g) by (apply nth_error_Some; congruence); lia).
    rewrite <- Ex. f_equal. lia. }
  assert (R : forall d x, nth_error g d = Some x -> exists row (dr bar : list (char * CStyle)), nth_error rows (n - s + d) = Some row /\ map s_char row = map fst dr ++ map fst bar /\ line_drawn no_special k x (Some w) true dr).
  { intros d x Ex. assert (Dl : d < length g) by (apply nth_error_Some; congruence). destruct (nth_error rows (n - s + d)) as [row|] eqn:Er; [|apply nth_error_None in Er; lia].
    destruct (H _ _ Er) as (_ & dr & bar & Ed & Dl' & _). exists row, dr, bar. split; [reflexivity|]. split.
    - apply (f_equal (map fst)) in Ed. unfold row_chars, with_style in Ed. rewrite !map_map in Ed. cbn [fst] in Ed. rewrite map_app in Ed. exact Ed.
    - destruct (Hin d x Ex) as (Hx & _). replace (s + (n - s + d)) with (n + d) in Dl' by lia. rewrite Hx in Dl'. exact Dl'. }
  assert (P : forall d row A M B, nth_error rows (n - s + d) = Some row -> map s_char row = A ++ M ++ B ->
     read_row (term_run u tm out) (x0 + sumw (chw u) A) (y0 + (n - s) + d) (sumw (chw u) M) = seen_chars u M).
  { intros d row A M B Er Em. rewrite <- Nat.add_assoc. eapply part_drawn; [exact C|exact E|intros j r Ej; apply (H j r Ej)|exact Er|exact Em]. }
  rewrite Forall_forall in Hc, Hr.
  assert (Sl : shows_source u ws l g).
  { clear - HS Ei Eg. revert i Ei Eg. induction HS as [|a b tb gs Hab _ IH]; intros [|i] Ei Eg; try discriminate; cbn in *; [congruence|eauto]. }
  assert (H32 : chw u 32%N = 1) by (narrow Hn). assert (Hv1 : chw u (vertical (table_border_chars k)) = 1) by (narrow Hn).
  assert (Hwb : forall cs m, sumw (chw u) (map fst (blanks cs m)) = m) by (intros cs m; apply (@blanks_width u cs m H32)).
  destruct l as [c|cells|als| |]; cbn [shows_source reads_source] in *.
  2:{ destruct Sl as (_ & Hrows & Ht).
    assert (Q : forall d x, nth_error g d = Some x -> exists row ds srow A, x = TableRow row /\ Forall (fun c => fc_kind c = KParagraph) row /\ has_columns ws x /\ Forall (in_room u k) row
       /\ nth_error rows (n - s + d) = Some srow /\ Forall2 (fun c dc => composite_drawn no_special k c None false false dc) row ds
       /\ map s_char srow = map fst (blanks (ls_cs (paragraph k)) lp) ++ map fst (flat_map (fun dc => (vertical (table_border_chars k), ls_cs (table k)) :: dc) ds ++ [(vertical (table_border_chars k), ls_cs (table k))]) ++ A).
    { intros d x Ex. destruct (R d x Ex) as (srow & dr & bar & Er & Em & Dr). destruct (Hin d x Ex) as (_ & Ix). pose proof (Hc _ Ix) as Hcx. pose proof (Hr _ Ix) as Hrx.
      rewrite Forall_forall in Hrows. destruct (Hrows x (nth_error_In _ _ Ex)) as (row & -> & HK). cbn [line_drawn line_in_room] in *. destruct Dr as (lp' & rp' & ds & So' & HF & ->).
      rewrite (columns_room Hcx) in So'. pose proof (@shared_unique _ _ _ _ _ _ _ So So') as <-. exists row, ds, srow, (map fst (blanks (ls_cs (paragraph k)) rp') ++ map fst bar). repeat (split; [solve [auto]|]).
      rewrite Em, !map_app, <- !app_assoc. reflexivity. }
    split.
    - intros j Hj. rewrite <- source_text, <- visible_map, <- (Ht j Hj). replace (map fst (flat_map _ (column j g))) with (flat_map (fun c => visible u (text_of (fc_compounds c))) (column j g)).
      2:{ clear. induction (column j g) as [|c l IH]; [reflexivity|]. cbn [flat_map]. rewrite map_app, visible_map, <- text_styled, IH. reflexivity. }
      unfold read_block. rewrite visible_flat.
      rewrite (@flat_nth _ _ (fun y => visible u (read_row (term_run u tm out) (x0 + lp + edge ws j + 1) y (nth j ws 0))) (fun x => match x with TableRow row => match nth_error row j with Some c => visible u (text_of (fc_compounds c)) | None => [] end | _ => [] end) g).
      + clear. induction g as [|x g IH]; [reflexivity|]. cbn [flat_map column]. rewrite flat_map_app. unfold column in IH. rewrite IH. f_equal. destruct x as [|row| |]; try reflexivity. destruct (nth_error row j); [cbn [flat_map]; symmetry; apply app_nil_r|reflexivity].
      + intros d x Ex. destruct (Q d x Ex) as (row & ds & srow & A & -> & HK & Hcx & Hrx & Er & HF & Em). destruct (nth_error row j) as [c|] eqn:Ec; [|apply nth_error_None in Ec; rewrite (columns_length Hcx) in Ec; lia].
        destruct (@row_cell u k row ds j c Hn Hrx HF Ec) as (a & m & b & Es & W1 & W2 & Cm). rewrite Es in Em. rewrite (columns_room Hcx) in W1. rewrite (room_nth _ Hcx Ec) in W2. rewrite !map_app in Em.
        rewrite <- (@composite_read u k c m Wh); [|rewrite Forall_forall in HK; apply HK; eapply nth_error_In; exact Ec|exact Cm].
        rewrite <- (visible_seen u (map fst m)). rewrite <- (P d srow (map fst (blanks (ls_cs (paragraph k)) lp) ++ map fst a) (map fst m) (map fst b ++ A) Er) by (rewrite Em, <- !app_assoc; reflexivity).
        rewrite sumw_app, Hwb. unfold drawn_width in W1, W2. rewrite W1, W2. f_equal. f_equal. lia.
    - intros j d Hj Hd. destruct (nth_error g d) as [x|] eqn:Ex; [|apply nth_error_None in Ex; lia]. destruct (Q d x Ex) as (row & ds & srow & A & -> & HK & Hcx & Hrx & Er & HF & Em).
      destruct (@row_edge u no_special k row ds j Hn Hs Hrx HF) as (a & b & Es & W1); [rewrite (columns_length Hcx); exact Hj|]. cbn [fst snd] in Es. rewrite Es in Em. rewrite (columns_room Hcx) in W1.
      pose proof (P d srow (map fst (blanks (ls_cs (paragraph k)) lp) ++ map fst a) [vertical (table_border_chars k)] (map fst b ++ A) Er) as X. rewrite sumw_app, Hwb in X. unfold drawn_width in W1. rewrite W1 in X. cbn [sumw] in X. 
      replace (sumw (chw u) [vertical (table_border_chars k)]) with 1 in X by (rewrite sumw_cons, Hv1; reflexivity). rewrite Nat.add_assoc in X. rewrite X.
      + unfold seen_chars. cbn [filter]. rewrite Hv1. reflexivity.
      + rewrite Em. rewrite map_app. cbn [map fst]. rewrite <- !app_assoc. reflexivity. }
  all: destruct Sl as (r & ->); split; [reflexivity|]; destruct (Hin 0 _ eq_refl) as (_ & Ix); pose proof (Hc _ Ix) as Hcx; destruct (R 0 _ eq_refl) as (srow & dr & bar & Er & Em & Dr); cbn [line_drawn has_columns] in *;
    destruct Hcx as (Hwr & _); destruct Dr as (lp' & rp' & So' & ->); rewrite Hwr in *; pose proof (@shared_unique _ _ _ _ _ _ _ So So') as <-; exists (position r).
  all: assert (Wr : sumw (chw u) (rule_text k ws (position r)) = table_line_width ws /\ seen_chars u (rule_text k ws (position r)) = rule_text k ws (position r)) by (apply rule_text_seen; assumption); destruct Wr as (W1 & W2).
  all: transitivity (seen_chars u (rule_text k ws (position r))); [|exact W2]; rewrite <- W1; pose proof (P 0 srow (map fst (blanks (ls_cs (paragraph k)) lp)) (rule_text k ws (position r)) (map fst (blanks (ls_cs (paragraph k)) rp') ++ map fst bar) Er) as X; rewrite Hwb, Nat.add_0_r in X; apply X;
    rewrite Em, !map_app, <- !app_assoc; unfold rule_text; destruct (position r); reflexivity.
Qed.

(** ** C99 *)

Lemma apart_parts before tb after : tb <> [] -> Forall (fun l => of_table l = true) tb -> ~ cut of_table before tb -> ~ cut of_table tb after -> separate before (tb ++ after) /\ separate tb after.
Proof.
  intros N F C1 C2. assert (K : forall l, of_table l = true -> of_code l = true -> False) by (intros []; discriminate). rewrite Forall_forall in F. split; (split; [|]).
  - intros (a' & x & y & b' & -> & E & X & Y). apply C1. destruct tb as [|z tb]; [congruence|]. injection E as <- _. exists a', x, z, tb. auto.
  - intros (a' & x & y & b' & -> & E & X & Y). destruct tb as [|z tb]; [congruence|]. injection E as <- _. apply (K z); [apply F; left; reflexivity|exact Y].
  - exact C2.
  - intros (a' & x & y & b' & -> & E & X & Y). apply (K x); [apply F, in_or_app; right; left; reflexivity|exact X].
Qed.
(** The lines of a text with a table *)
Lemma text_with_table u k um w before tb after t : additive u -> (forall c, chw u c <= 2) -> 5 <= w -> tb <> [] -> Forall (fun l => of_table l = true) tb -> ~ cut of_table before tb -> ~ cut of_table tb after ->
  Forall (area_source u k w) (before ++ tb ++ after) -> from_text u k um (before ++ tb ++ after) (Some w) = Ret t ->
  exists t0 ws gs LB, from_text u k um before (Some w) = Ret t0 /\ length ws = source_columns tb /\ Forall (fun w => 3 <= w) ws /\ table_line_width ws <= w /\ ws <> [] /\ txt_lines t = txt_lines t0 ++ concat gs ++ LB
  /\ Forall (has_columns ws) (concat gs) /\ Forall (line_in_room u k) (concat gs) /\ Forall2 (shows_source u ws) tb gs.
Proof.
  intros Hu H2 Hw N F C1 C2 Hsrc E. destruct (@apart_parts before tb after N F C1 C2) as (S1 & S2). apply C83_formatted in E as (t0 & t1 & E0 & E1 & ->); [|exact S1]. apply C83_formatted in E1 as (tt & ta & E1 & E2 & ->); [|exact S2].
  apply Forall_app in Hsrc as (_ & Hsrc). apply Forall_app in Hsrc as (Hsrc & _). destruct (@table_lines u k um w tb tt Hu H2 Hw N F Hsrc E1) as (ws & gs & L & G3 & Gs & N' & El & Hc & Hr & HS).
  exists t0, ws, gs, (txt_lines ta). cbn [txt_lines]. rewrite El in *. auto 12.
Qed.

Lemma table_placed al ws w : table_line_width ws <= w -> fst (optional_completions al (table_line_width ws) (Some w)) + table_line_width ws <= w.
Proof. intros H. pose proof (shared_opt_spec al (table_line_width ws) (Some w)) as So. destruct (optional_completions _ _ _) as [lp rp]. cbn [fst shared_opt] in *. unfold shared in So. lia. Qed.
Lemma length_concat' A (l : list (list A)) : length (concat l) = sum (map (@length _) l).
Proof. induction l as [|x l IH]; [reflexivity|]. cbn [concat map sum]. rewrite app_length, IH. reflexivity. Qed.
Lemma shown_heights u ws tb gs : Forall2 (shows_source u ws) tb gs -> Forall (fun h => 1 <= h) (map (@length FmtLine) gs).
Proof. induction 1 as [|l g tb gs H _ IH]; cbn [map]; constructor; [|exact IH]. destruct l; cbn [shows_source] in H; try (destruct H as (r & ->); cbn; lia). apply H. Qed.

(** A table in a text drawn in an area. Its left is the one of the area, but for the spaces put by the alignment of tables; its line number [i] takes [nth i hs 0]
    rows; the first one is after the rows of the text before it. On each terminal, in the cells of the terminal which are between two successive borders and in
    the rows of a row of the table, what can be read is the source of the cell of the table. The borders are read around them.
    The rules have one row. *)
Theorem C99_area : forall u k um before tb after a, usual u no_special k ->
  (6 <= a_width a)%N -> on_screen a -> margins_not_just k (N.to_nat (a_width a)) ->
  Forall (area_source u k (N.to_nat (a_width a) - 1)) (before ++ tb ++ after) -> is_white u 32%N = true ->
  tb <> [] -> Forall (fun l => of_table l = true) tb -> ~ cut of_table before tb -> ~ cut of_table tb after ->
  exists t t0 out ws hs lp, area_text u k um (before ++ tb ++ after) a = Ret t /\ area_text u k um before a = Ret t0
  /\ write_in_area_on u no_special k um (before ++ tb ++ after) a = Ret out
  /\ length ws = source_columns tb /\ Forall (fun w => 3 <= w) ws /\ lp + table_line_width ws <= N.to_nat (a_width a)
  /\ (exists rp, shared_opt (ls_align (table k)) (table_line_width ws) (Some (N.to_nat (a_width a))) lp rp)
  /\ length hs = length tb /\ Forall (fun h => 1 <= h) hs /\ length (txt_lines t0) + sum hs <= length (txt_lines t)
  /\ forall tm i l h, nth_error tb i = Some l -> nth_error hs i = Some h ->
     let n := length (txt_lines t0) + sum (firstn i hs) in n + h <= N.to_nat (a_height a) ->
     reads_source u k (term_run u tm out) ws l (N.to_nat (a_left a) + lp) (N.to_nat (a_top a) + n) h.
Proof.
  intros u k um before tb after a U W S M T Wh N F C1 C2. destruct (@C76_area_partial u no_special k um _ a U W S M T) as (t & out & Et & E & HF).
  destruct U as (Hk & Hu & H2 & Hn & Hs & Hb). pose proof Et as Et'. unfold area_text in Et'. rewrite subN_ret, bind_ret in Et' by lia. 
  destruct (@text_with_table u k um (N.to_nat (a_width a - 1)) before tb after t Hu H2 ltac:(lia) N F C1 C2 ltac:(replace (N.to_nat (a_width a - 1)) with (N.to_nat (a_width a) - 1) by lia; exact T) Et') as (t0 & ws & gs & LB & E0 & L & G3 & Gs & N' & El & Hc & Hr & HS).
  exists t, t0, out, ws, (map (@length _) gs), (fst (optional_completions (ls_align (table k)) (table_line_width ws) (Some (N.to_nat (a_width a))))). split; [exact Et|]. split; [unfold area_text; rewrite subN_ret, bind_ret by lia; exact E0|]. split; [exact E|]. split; [exact L|]. split; [exact G3|].
  split; [apply (table_placed (ls_align (table k)) ws); lia|].
  split; [exists (snd (optional_completions (ls_align (table k)) (table_line_width ws) (Some (N.to_nat (a_width a))))); pose proof (shared_opt_spec (ls_align (table k)) (table_line_width ws) (Some (N.to_nat (a_width a)))) as So; destruct (optional_completions _ _ _); exact So|].
  split; [rewrite map_length; symmetry; exact (Forall2_len HS)|]. split; [apply (shown_heights HS)|].
  split; [rewrite El, !app_length, length_concat'; lia|].
  intros tm i l h Ei Eh n Hi. rewrite nth_error_map in Eh. destruct (nth_error gs i) as [g|] eqn:Eg; [|discriminate Eh]. injection Eh as <-.
  destruct (HF (t_x tm) (t_y tm)) as (_ & rows & Er & Lr & HR).
  assert (En : n = length (txt_lines t0) + length (concat (firstn i gs))) by (unfold n; rewrite length_concat', firstn_map; reflexivity).
  pose proof (@lines_read u k tm out rows (N.to_nat (a_left a)) (N.to_nat (a_top a)) (N.to_nat (a_width a)) (N.to_nat (a_width a)) 0 None (txt_lines t) (txt_lines t0) gs LB ws tb Hn Wh N'
    ltac:(eapply clean_area; left; exact E) Er HR El Hc Hr HS i l g Ei Eg) as X. cbv zeta in X. rewrite <- En, Nat.sub_0_r in X. apply X; lia.
Qed.
(** The same in a scrollable view, for the lines of the table which are shown with this scroll *)
Theorem C99_view : forall u k um before tb after a s, usual u no_special k ->
  (6 <= a_width a)%N -> (1 <= a_height a)%N -> on_screen a -> margins_not_just k (N.to_nat (a_width a)) ->
  Forall (area_source u k (N.to_nat (a_width a) - 1)) (before ++ tb ++ after) -> is_white u 32%N = true ->
  tb <> [] -> Forall (fun l => of_table l = true) tb -> ~ cut of_table before tb -> ~ cut of_table tb after ->
  exists t t0, area_text u k um (before ++ tb ++ after) a = Ret t /\ area_text u k um before a = Ret t0
  /\ (length (txt_lines t) < N.to_nat 65536 -> N.to_nat s <= length (txt_lines t) - N.to_nat (a_height a) ->
  exists out ws hs lp, mad_write_on u no_special k um (before ++ tb ++ after) a s = Ret out
  /\ length ws = source_columns tb /\ Forall (fun w => 3 <= w) ws /\ lp + table_line_width ws <= N.to_nat (a_width a)
  /\ length hs = length tb /\ Forall (fun h => 1 <= h) hs /\ length (txt_lines t0) + sum hs <= length (txt_lines t)
  /\ forall tm i l h, nth_error tb i = Some l -> nth_error hs i = Some h ->
     let n := length (txt_lines t0) + sum (firstn i hs) in N.to_nat s <= n -> n + h <= N.to_nat s + N.to_nat (a_height a) ->
     reads_source u k (term_run u tm out) ws l (N.to_nat (a_left a) + lp) (N.to_nat (a_top a) + (n - N.to_nat s)) h).
Proof.
  intros u k um before tb after a s U W Hh S M T Wh N F C1 C2. destruct (@C76_view_partial u no_special k um _ a s U W Hh S M T) as (t & Et & V). destruct U as (Hk & Hu & H2 & Hn & Hs & Hb).
  pose proof Et as Et'. unfold area_text in Et'. rewrite subN_ret, bind_ret in Et' by lia. 
  destruct (@text_with_table u k um (N.to_nat (a_width a - 1)) before tb after t Hu H2 ltac:(lia) N F C1 C2 ltac:(replace (N.to_nat (a_width a - 1)) with (N.to_nat (a_width a) - 1) by lia; exact T) Et') as (t0 & ws & gs & LB & E0 & L & G3 & Gs & N' & El & Hc & Hr & HS).
  exists t, t0. split; [exact Et|]. split; [unfold area_text; rewrite subN_ret, bind_ret by lia; exact E0|]. intros L1 L2. destruct (V L1 L2) as (out & sb & E & _ & HF).
  set (w := match sb with None => N.to_nat (a_width a) | Some _ => N.to_nat (a_width a) - 1 end) in *. assert (Hw : N.to_nat (a_width a) - 1 <= w <= N.to_nat (a_width a)) by (unfold w; destruct sb; lia).
  exists out, ws, (map (@length _) gs), (fst (optional_completions (ls_align (table k)) (table_line_width ws) (Some w))). split; [exact E|]. split; [exact L|]. split; [exact G3|].
  split; [etransitivity; [apply (table_placed (ls_align (table k)) ws (w := w)); lia|lia]|]. split; [rewrite map_length; symmetry; exact (Forall2_len HS)|]. split; [apply (shown_heights HS)|].
  split; [rewrite El, !app_length, length_concat'; lia|].
  intros tm i l h Ei Eh n Hi1 Hi2. rewrite nth_error_map in Eh. destruct (nth_error gs i) as [g|] eqn:Eg; [|discriminate Eh]. injection Eh as <-.
  destruct (HF (t_x tm) (t_y tm)) as (_ & rows & Er & Lr & HR).
  assert (En : n = length (txt_lines t0) + length (concat (firstn i gs))) by (unfold n; rewrite length_concat', firstn_map; reflexivity).
  pose proof (@lines_read u k tm out rows (N.to_nat (a_left a)) (N.to_nat (a_top a)) (N.to_nat (a_width a)) w (N.to_nat s) sb (txt_lines t) (txt_lines t0) gs LB ws tb Hn Wh N'
    ltac:(eapply clean_area; right; eexists; exact E) Er HR El Hc Hr HS i l g Ei Eg) as X. cbv zeta in X. rewrite <- En in X. apply X; lia.
Qed.
Print Assumptions C99_area.
Print Assumptions C99_view.

(** ** A title, a table whose last row has a cell which must be wrapped and lacks a cell, then a paragraph, in an area of 18 columns *)
Definition some_table : list MLine :=
  [MTableRow [mkMC MParagraph [plain (letters 1)]; mkMC MParagraph [plain (repeat 98%N 2)]]; MTableRule [ALeft; Center];
   MTableRow [mkMC MParagraph [plain (repeat 99%N 20)]]].
Definition some_before : list MLine := [MNormal (mkMC (MHeader 2) [plain (letters 3)])].
Definition some_after : list MLine := [MNormal (mkMC MParagraph [plain (repeat 100%N 4)])].
Lemma some_table_source : Forall (area_source demo skin_default 17) (some_before ++ some_table ++ some_after).
Proof.
  assert (HN : forall c, drawn_kind (kind_of (mc_style c)) -> lead skin_default (kind_of (mc_style c)) + 2 <= 17 ->
    (kind_of (mc_style c) = KCode -> sumw (chw demo) (text_of (mc_compounds c)) <= 17) -> area_source demo skin_default 17 (MNormal c)).
  { intros c H0 H1 H2. split; [exact H0|]. intros lm rm (ls & El & Em). destruct (default_margins _ El) as [E1 E2].
    unfold margins_in in Em. rewrite E1, E2 in Em. cbn in Em. injection Em as <- <-. split; [lia|]. intros H. specialize (H2 H). lia. }
  unfold some_before, some_table, some_after. cbn [app]. repeat (apply Forall_cons; [|]); try apply Forall_nil.
  all: first [apply HN; [split; [discriminate|cbn; try exact I; lia]|cbn; lia|discriminate] | split; [discriminate|cbn; lia] | split; [discriminate|split; [cbn; lia|repeat constructor]]].
Qed.
Example C99_example : usual demo no_special skin_default /\ margins_not_just skin_default 18 /\ Forall (area_source demo skin_default 17) (some_before ++ some_table ++ some_after)
  /\ is_white demo 32%N = true /\ some_table <> [] /\ Forall (fun l => of_table l = true) some_table /\ ~ cut of_table some_before some_table /\ ~ cut of_table some_table some_after
  /\ on_screen (mkArea 3 2 18 9) /\ source_columns some_table = 2
  /\ exists out, write_in_area_on demo no_special skin_default 1000 (some_before ++ some_table ++ some_after) (mkArea 3 2 18 9) = Ret out
  /\ let tm := term_run demo full_term out in let ws := [11; 3] in
     map (visible demo) (read_area tm (mkArea 3 2 18 9))
       = [repeat 97%N 3; [9474; 97; 9474; 98; 98; 9474]%N; (9500 :: repeat 9472 11 ++ 9532 :: repeat 9472 3 ++ [9508])%N;
          (9474 :: repeat 99 11 ++ [9474; 9474])%N; (9474 :: repeat 99 9 ++ [9474; 9474])%N; repeat 100%N 4; []; []; []]
  /\ edge ws 0 = 0 /\ edge ws 1 = 12 /\ edge ws 2 = 16
  /\ visible demo (read_block tm (3 + 0 + 1) 3 11 1) = [97]%N /\ visible demo (read_block tm (3 + 12 + 1) 3 3 1) = [98; 98]%N
  /\ visible demo (read_block tm (3 + 0 + 1) 5 11 2) = repeat 99%N 20 /\ visible demo (read_block tm (3 + 12 + 1) 5 3 2) = [].
Proof.
  split; [exact demo_usual|]. split; [intros kind ls El; destruct (default_margins _ El) as [-> ->]; discriminate|]. split; [exact some_table_source|].
  split; [reflexivity|]. split; [discriminate|]. split; [repeat constructor|].
  split; [intros (a' & x & y & b' & E & _ & X & _); destruct a' as [|? [|]]; try discriminate; injection E as <-; discriminate|].
  split; [intros (a' & x & y & b' & _ & E & _ & X); injection E as <- _; discriminate|].
  split; [split; reflexivity|]. split; [reflexivity|]. eexists. split; [vm_compute; reflexivity|]. cbv zeta. repeat (split; [vm_compute; reflexivity|]). vm_compute; reflexivity.
Qed.
