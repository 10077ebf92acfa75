(** * What is read on the terminal has the looks told by the text and the skin (C106) *)
From Verif Require Import Base L_Base M_Style M_Fit M_Wrap M_TblFit S_Wrap M_Text S_Text L_Text L_Text2 M_Fitter M_View S_View M_Render S_Render L_Render M_Area S_Input S_Pen S_Area S_Paint S_Border S_Read S_Cells S_Local S_Whole S_Look L_Clean L_View Demo.
From Verif Require Import P_Wrap P_Text P_Render P_Local P_Area P_Pen P_Paint P_Read P_Border P_Cells P_Whole.
From Verif Require P_Block P_Origin L_Wrap.
Set Implicit Arguments.
Open Scope nat_scope.

(** ** The looks of a row *)
Definition worn_text (d : list (char * CStyle)) : list (char * pen) := map (fun x => (fst x, worn (Some (snd x)))) d.
Lemma one_look (F : nat -> seen) c p : forall n from, (forall i, i < n -> F (from + i) = Part c i p) -> flat_map (fun i => look_cell (F i)) (seq from n) = if 0 <? n then [(c, p)] else [].
Proof.
  intros [|n] from H; [reflexivity|]. cbn [seq flat_map]. rewrite <- (Nat.add_0_r from) at 1. rewrite H by lia. cbn [look_cell app]. change (0 <? S n) with true. cbv iota. f_equal.
  rewrite flat_map_concat_map. replace (map _ _) with (map (fun _ : nat => @nil (char * pen)) (seq (S from) n)).
  - generalize (seq (S from) n). induction l as [|a l IH]; [reflexivity|exact IH].
  - apply map_ext_in. intros x I. apply in_seq in I. replace x with (from + S (x - from - 1)) by lia. rewrite H by lia. reflexivity.
Qed.
Lemma look_app t x y a b : look_row t x y (a + b) = look_row t x y a ++ look_row t (x + a) y b.
Proof. unfold look_row. rewrite seq_app, flat_map_app. reflexivity. Qed.
Lemma part_look u out t x0 y0 w rows : clean out -> faithful out -> t_pen t = pen0 -> screen u (t_x t) (t_y t) out = concat rows ->
  (forall j row, nth_error rows j = Some row -> tiles u (y0 + j) x0 row (x0 + w)) ->
  forall j row (A M B : list (char * CStyle)), nth_error rows j = Some row -> row_chars row = with_style (A ++ M ++ B) ->
  look_row (term_run u t out) (x0 + sumw (chw u) (map fst A)) (y0 + j) (sumw (chw u) (map fst M)) = placed_of u (worn_text M).
Proof.
  intros C F P E T j row A M B R Er. unfold row_chars, with_style in Er. rewrite !map_app in Er. apply map_eq_app in Er as (a & r & -> & EA & Er). apply map_eq_app in Er as (m & b & -> & EM & _).
  assert (X : forall l (d : list (char * CStyle)), map (fun s => (s_char s, s_style s)) l = map (fun p => (fst p, Some (snd p))) d -> map s_char l = map fst d) by (intros l d H; apply (f_equal (map fst)) in H; rewrite !map_map in H; exact H).
  rewrite <- (X _ _ EA), <- (X _ _ EM). replace (worn_text M) with (map (fun s => (s_char s, worn (s_style s))) m).
  2:{ apply (f_equal (map (fun p => (fst p, worn (snd p))))) in EM. rewrite !map_map in EM. cbn [fst snd] in EM. exact EM. }
  clear X EA EM A M. revert a R. induction m as [|s m IH]; intros a R; [reflexivity|]. cbn [map]. rewrite sumw_cons, look_app. unfold placed_of. cbn [filter fst].
  pose proof (IH (a ++ [s]) ltac:(rewrite <- app_assoc; exact R)) as X. rewrite map_app in X. cbn [map] in X. rewrite sumw_app, sumw_cons in X. replace (sumw (chw u) []) with 0 in X by reflexivity. rewrite Nat.add_0_r, Nat.add_assoc in X. rewrite X. unfold placed_of.
  unfold look_row. rewrite (@one_look (fun i => t_cell (term_run u t out) i (y0 + j)) (s_char s) (worn (s_style s))); [destruct (0 <? chw u (s_char s)); reflexivity|].
  intros i Hi. exact (@spot_seen u out t x0 y0 w rows C F P E T j a s (m ++ b) i R Hi).
Qed.

(** ** The looks of styles *)
Lemma look_over l : forall cs, look_of (cs :: l) = worn (Some (fold_left overwrite_with l cs)).
Proof.
  intros cs. unfold look_of, worn, worn_over, cs_has_attr. cbn [map fold_left pen0 p_fg p_bg p_attrs].
  assert (Ha : forall l cs, attrs (fold_left overwrite_with l cs) = fold_left N.lor (map attrs l) (attrs cs)) by (clear; induction l as [|x l IH]; intros cs; [reflexivity|]; cbn [fold_left map]; rewrite IH; reflexivity).
  assert (Hf : forall l cs, match fg (fold_left overwrite_with l cs) with Some c => c | None => Reset end = fold_left (fun a o => match o with Some c => c | None => a end) (map fg l) (match fg cs with Some c => c | None => Reset end)).
  { clear. induction l as [|x l IH]; intros cs; [reflexivity|]. cbn [fold_left map]. rewrite IH. f_equal. cbn [overwrite_with fg]. destruct (fg x); reflexivity. }
  assert (Hb : forall l cs, match bg (fold_left overwrite_with l cs) with Some c => c | None => Reset end = fold_left (fun a o => match o with Some c => c | None => a end) (map bg l) (match bg cs with Some c => c | None => Reset end)).
  { clear. induction l as [|x l IH]; intros cs; [reflexivity|]. cbn [fold_left map]. rewrite IH. f_equal. cbn [overwrite_with bg]. destruct (bg x); reflexivity. }
  rewrite Ha, Hf, Hb, !N.lor_0_l. reflexivity.
Qed.
Lemma look_worn cs : worn (Some cs) = look_of [cs].
Proof. symmetry. apply (look_over [] cs). Qed.
Lemma look_compound k ls c : is_ellipsis c = false -> worn (Some (compound_style k ls c)) = look_of (ls_cs ls :: styles_over k (c_bold c, c_italic c, c_code c, c_strikeout c)).
Proof. intros E. rewrite look_over. unfold compound_style. rewrite E. cbn [styles_over]. destruct (c_italic c), (c_strikeout c), (c_bold c), (c_code c); reflexivity. Qed.
Lemma style_of_line k kind ls : skin_ok k -> line_style k kind = Ret ls -> ls_cs ls = style_for k kind.
Proof.
  intros Hk. destruct kind as [|lv|d|d| |]; cbn [line_style style_for]; try (intros H; injection H as <-; reflexivity).
  unfold skin_ok in Hk. destruct (Nat.leb_spec lv MAX_HEADER_DEPTH) as [L|L].
  - unfold csub. destruct (1 <=? lv); [|discriminate]. cbn [bind]. unfold idx. destruct (nth_error (headers k) (lv - 1)) as [h|] eqn:E; [|discriminate]. intros H. injection H as <-. rewrite (nth_error_nth _ _ _ E). reflexivity.
  - intros H. injection H as <-. rewrite nth_overflow by lia. reflexivity.
Qed.
Lemma compounds_look k kind ls cs : ls_cs ls = style_for k kind -> ~ In c_ellipsis (text_of cs) -> worn_text (flat_map (compound_drawn no_special k ls) cs) = source_looks k kind cs.
Proof.
  intros Hl. induction cs as [|c cs IH]; intros N; [reflexivity|]. cbn [text_of flat_map] in N. unfold worn_text, source_looks in *. cbn [flat_map]. rewrite map_app, IH by (intros I; apply N, in_or_app; right; exact I). f_equal.
  unfold compound_drawn. cbn [no_special]. rewrite map_map. cbn [fst snd]. apply map_ext. intros ch. rewrite look_compound, Hl; [reflexivity|].
  unfold is_ellipsis. destruct (src c) as [|x [|]] eqn:Ec; try reflexivity. destruct (N.eqb_spec x c_ellipsis) as [->|]; [|reflexivity]. exfalso. apply N. left. reflexivity.
Qed.
Lemma looks_styled k kind cs : source_looks k kind cs = map (fun x => (fst x, look_of (style_for k kind :: styles_over k (snd x)))) (S_Wrap.styled cs).
Proof. unfold source_looks, S_Wrap.styled. induction cs as [|c cs IH]; [reflexivity|]. cbn [flat_map]. rewrite map_app, IH, map_map. reflexivity. Qed.
Lemma looks_flat k kind (fcs : list FmtComposite) : flat_map (fun f => source_looks k kind (fc_compounds f)) fcs = map (fun x => (fst x, look_of (style_for k kind :: styles_over k (snd x)))) (flat_map (fun f => S_Wrap.styled (fc_compounds f)) fcs).
Proof. induction fcs as [|f fcs IH]; [reflexivity|]. cbn [flat_map]. rewrite map_app, IH, looks_styled. reflexivity. Qed.
Lemma thinned_map u A B (g : A -> B) s d : thinned u s d -> thinned u (map (fun x => (fst x, g (snd x))) s) (map (fun x => (fst x, g (snd x))) d).
Proof. induction 1 as [|c s d _ IH|c s d W _ IH]; cbn [map]; constructor; auto. Qed.
Lemma next_style k kind : style_for k (next_kind kind) = style_for k kind.
Proof. destruct kind; reflexivity. Qed.
Lemma looks_next k kind cs : source_looks k (next_kind kind) cs = source_looks k kind cs.
Proof. rewrite !looks_styled, next_style. reflexivity. Qed.
Lemma next_mark_look k kind i : mark_looks k (next_kind kind) 0 = mark_looks k kind (S i).
Proof. destruct kind; reflexivity. Qed.

(** ** The looks of a line *)
Lemma placed_app u a b : placed_of u (a ++ b) = placed_of u a ++ placed_of u b.
Proof. apply filter_app. Qed.
Lemma worn_app a b : worn_text (a ++ b) = worn_text a ++ worn_text b.
Proof. apply map_app. Qed.
Lemma placed_repeat u c p n : chw u c = 1 -> placed_of u (repeat (c, p) n) = repeat (c, p) n.
Proof. intros H. unfold placed_of. induction n as [|n IH]; [reflexivity|]. cbn [repeat filter fst]. rewrite H. change (0 <? 1) with true. cbv iota. f_equal. exact IH. Qed.
Lemma worn_repeat c cs n : worn_text (repeat (c, cs) n) = repeat (c, look_of [cs]) n.
Proof. unfold worn_text. rewrite map_repeat. cbn [fst snd]. rewrite look_worn. reflexivity. Qed.
Lemma composite_look u k fc w d : skin_ok k -> chw u 32%N = 1 -> ~ In c_ellipsis (text_of (fc_compounds fc)) -> composite_drawn no_special k fc (Some w) true true d ->
  let far := (32%N, look_of [ls_cs (paragraph k)]) in let near := (32%N, look_of [style_for k (fc_kind fc)]) in
  exists a b b' a', placed_of u (worn_text d) = repeat far a ++ repeat near b ++ placed_of u (mark_looks k (fc_kind fc) 0 ++ source_looks k (fc_kind fc) (fc_compounds fc)) ++ repeat near b' ++ repeat far a'
  /\ forall bw lm rm, fc_kind fc = KCode -> fc_spacing fc = Some (mkSpacing bw ALeft) -> margins_in (code_block k) (Some w) = (lm, rm) -> visible_length fc <= bw ->
     a = fst (optional_completions (ls_align (code_block k)) (bw + lm + rm) (Some w)) + lm /\ b = 0 /\ visible_length fc + b' = bw.
Proof.
  intros Hk H32 NE (ls & lm & rm & lp & rp & li & ri & El & Hm & So & Si & ->) far near. pose proof (@style_of_line k _ ls Hk El) as Hst.
  assert (Mk : exists m, worn_text (mark_drawn k (fc_kind fc)) = repeat near m ++ mark_looks k (fc_kind fc) 0 /\ (fc_kind fc = KCode -> m = 0)).
  { unfold mark_drawn, mark_looks, near. destruct (fc_kind fc) as [|lv|d|d| |]; try (exists 0; split; [reflexivity|reflexivity]).
    - exists d. rewrite !worn_app. unfold blanks. rewrite !worn_repeat. split; [|discriminate]. cbn [style_for]. reflexivity.
    - destruct (indent_mode k); [exists 0; split; [reflexivity|discriminate]|exists (d + 2); unfold blanks; rewrite worn_repeat, app_nil_r; split; [reflexivity|discriminate]]. }
  destruct Mk as (m & Em & Mk). exists (lp + lm), (li + m), ri, (rp + rm). split.
  - rewrite !worn_app, Em, (@compounds_look k _ ls _ Hst NE). unfold blanks. rewrite !worn_repeat, Hst. fold far near. rewrite !repeat_app, !placed_app. unfold far, near. rewrite !placed_repeat by exact H32. rewrite <- !app_assoc. reflexivity.
  - intros bw lm' rm' Kc Sp Mi Lv. rewrite Kc in El. cbn [line_style] in El. injection El as <-. unfold room in So. rewrite Sp in So, Si. cbn [sp_width sp_align] in So, Si. destruct Si as (Si' & Si). cbn beta iota in Si.
    pose proof (margins_spec (code_block k) true (Some w)) as Hm'. cbv beta iota in Hm'. rewrite Mi in Hm'. assert (X : lm' = lm /\ rm' = rm).
    { destruct Hm as (_ & Hm). destruct Hm' as (_ & Hm'). specialize (Hm eq_refl). specialize (Hm' eq_refl). cbn beta iota in Hm, Hm'. destruct (Nat.le_gt_cases (left_margin (code_block k) + right_margin (code_block k) + 3) w) as [L|L];
        [destruct Hm as (Hm & _); destruct Hm' as (Hm' & _)|destruct Hm as (_ & Hm); destruct Hm' as (_ & Hm')]; specialize (Hm L); specialize (Hm' L); lia. }
    destruct X as (-> & ->). pose proof (shared_opt_spec (ls_align (code_block k)) (bw + lm + rm) (Some w)) as So'. destruct (optional_completions _ _ _) as (lp' & rp'). cbn [fst].
    pose proof (@shared_unique _ _ _ _ _ _ _ So So') as <-. rewrite (Mk Kc). clear - Si Si' Lv. lia.
Qed.
Lemma cell_look u k c d : skin_ok k -> is_white u 32%N = true -> ~ In c_ellipsis (text_of (fc_compounds c)) -> fc_kind c = KParagraph -> composite_drawn no_special k c None false false d -> visible_of u (worn_text d) = visible_of u (source_looks k KParagraph (fc_compounds c)).
Proof.
  intros Hk W NE K (ls & lm & rm & lp & rp & li & ri & El & _ & _ & _ & ->). rewrite K in *. pose proof (@style_of_line k _ ls Hk El) as Hst. cbn [mark_drawn]. rewrite !worn_app, (@compounds_look k _ ls _ Hst NE). unfold blanks. rewrite !worn_repeat, !visible_of_app.
  assert (B : forall (p : pen) n, visible_of u (repeat (32%N, p) n) = []) by (intros p n; unfold visible_of; induction n as [|n IH]; [reflexivity|]; cbn [repeat filter fst]; rewrite W; exact IH).
  rewrite !B. change (visible_of u (worn_text [])) with (@nil (char * pen)). cbn [app]. rewrite !app_nil_r. reflexivity.
Qed.
Lemma visible_placed u l : visible_of u (placed_of u l) = visible_of u l.
Proof. unfold visible_of, placed_of. induction l as [|c l IH]; [reflexivity|]. cbn [filter]. destruct (0 <? chw u (fst c)) eqn:E; cbn [filter]; rewrite ?E, IH; [reflexivity|]. rewrite andb_false_r. reflexivity. Qed.
Lemma thinned_no u A (s d : list (char * A)) c : thinned u s d -> ~ In c (map fst s) -> ~ In c (map fst d).
Proof. intros H N I. apply in_map_iff in I as (x & <- & I). apply N. apply in_map. exact (P_Origin.thinned_incl H x I). Qed.
Lemma no_flat A (f : A -> str) c l : ~ In c (flat_map f l) -> forall x, In x l -> ~ In c (f x).
Proof. intros N x I J. apply N, in_flat_map. eauto. Qed.
Lemma no_styled c cs : ~ In c (map fst (S_Wrap.styled cs)) <-> ~ In c (text_of cs).
Proof. rewrite <- text_styled. reflexivity. Qed.
Lemma visible_of_map u A B (g : A -> B) l : visible_of u (map (fun x => (fst x, g (snd x))) l) = map (fun x => (fst x, g (snd x))) (visible_of u l).
Proof. unfold visible_of. induction l as [|c l IH]; [reflexivity|]. cbn [map filter fst]. destruct (_ && _); cbn [map]; rewrite IH; reflexivity. Qed.
Lemma line_look u k tm out rows x0 y0 W w w' s sb lines LA g LB l q :
  skin_ok k -> narrow_chars u k -> is_white u 32%N = true -> chw u c_ellipsis <> 0 -> is_white u c_ellipsis = false ->
  Forall (fun c => chw u (fst (drawn_char c)) = 1) [thumb (scrollbar k); track (scrollbar k)] ->
  clean out -> faithful out -> t_pen tm = pen0 -> screen u (t_x tm) (t_y tm) out = concat rows ->
  (forall j row, nth_error rows j = Some row -> tiles u (y0 + j) x0 row (x0 + W) /\ shows_row u no_special k lines w s sb y0 j row) ->
  match sb with None => w = W | Some _ => w + 1 = W end ->
  lines = LA ++ g ++ LB -> made u k w' l g q -> no_ellipsis l -> w' <= w ->
  s <= length LA -> length LA + length g <= s + length rows ->
  looks_line u k (term_run u tm out) (laid k w l g q) (snd q) l x0 (y0 + (length LA - s)) w.
Proof.
  intros Hk Hn Wh E1 E2 Hbar C F P E H HW Hl M NE Lw L1 L2.
  assert (H32 : chw u 32%N = 1) by (narrow Hn).
  assert (R : forall d x, nth_error g d = Some x -> exists (row : list spot) (dr bar : list (char * CStyle)), line_drawn no_special k x (Some w) true dr
     /\ nth_error rows (length LA - s + d) = Some row /\ row_chars row = with_style (dr ++ bar) /\ sumw (chw u) (map fst dr) = w).
  { intros d x Ex. assert (Dl : d < length g) by (apply nth_error_Some; congruence). destruct (nth_error rows (length LA - s + d)) as [row|] eqn:Er; [|apply nth_error_None in Er; lia].
    destruct (H _ _ Er) as (T & dr & bar & Ed & Dl' & Hb). exists row, dr, bar. 
    assert (Hx : nth_error lines (s + (length LA - s + d)) = Some x).
    { rewrite Hl, nth_error_app2 by lia. rewrite nth_error_app1 by lia. rewrite <- Ex. f_equal. lia. }
    rewrite Hx in Dl'. split; [exact Dl'|]. split; [reflexivity|]. split; [exact Ed|].
    apply (f_equal (map fst)) in Ed. unfold row_chars, with_style in Ed. rewrite !map_map in Ed. cbn [fst] in Ed. rewrite map_app in Ed. change (map s_char row = map fst dr ++ map fst bar) in Ed.
    assert (Wb : sumw (chw u) (map fst bar) = W - w).
    { destruct sb as [(t & b)|]; [|subst bar; cbn; lia]. inversion Hbar as [|? ? B1 B2]; subst. inversion B2 as [|? ? B3 _]; subst. destruct Hb as (Hb1 & Hb2).
      replace (w + 1 - w) with 1 by lia. destruct (N.leb t (N.of_nat (y0 + (length LA - s + d)))) eqn:Q1; [destruct (N.leb (N.of_nat (y0 + (length LA - s + d))) b) eqn:Q2|].
      - rewrite Hb1 by lia. cbn [map]. rewrite sumw_cons, B1. reflexivity.
      - rewrite Hb2 by lia. cbn [map]. rewrite sumw_cons, B3. reflexivity.
      - rewrite Hb2 by lia. cbn [map]. rewrite sumw_cons, B3. reflexivity. }
    pose proof (@tiles_width _ _ _ _ _ T) as Q. rewrite Ed, sumw_app, Wb in Q. destruct sb; lia. }
  assert (PL : forall d row A M B, nth_error rows (length LA - s + d) = Some row -> row_chars row = with_style (A ++ M ++ B) ->
     look_row (term_run u tm out) (x0 + sumw (chw u) (map fst A)) (y0 + (length LA - s) + d) (sumw (chw u) (map fst M)) = placed_of u (worn_text M)).
  { intros d row A M0 B Er Em. rewrite <- Nat.add_assoc. exact (@part_look u out tm x0 y0 W rows C F P E (fun j r Ej => proj1 (H j r Ej)) _ row A M0 B Er Em). }
  assert (PA : forall d row dr bar, nth_error rows (length LA - s + d) = Some row -> row_chars row = with_style (dr ++ bar) -> sumw (chw u) (map fst dr) = w ->
     look_row (term_run u tm out) x0 (y0 + (length LA - s) + d) w = placed_of u (worn_text dr)).
  { intros d row dr bar Er Em Ew. pose proof (PL d row [] dr bar Er Em) as X. cbn [map] in X. replace (sumw (chw u) []) with 0 in X by reflexivity. rewrite Nat.add_0_r, Ew in X. exact X. }
  destruct l as [c|cells|als| |]; cbn [made looks_line no_ellipsis l_rows l_columns l_left laid] in *; cbv zeta.
  - destruct M as (fcs & -> & (first & others & -> & K1 & K2) & Sh & Cd). set (kind := kind_of (mc_style c)) in *.
    assert (NF : forall f, In f (first :: others) -> ~ In c_ellipsis (text_of (fc_compounds f))).
    { apply no_styled in NE. apply (@thinned_no u _ _ _ c_ellipsis Sh) in NE. rewrite flat_text in NE. exact (@no_flat _ _ _ _ NE). }
    assert (KF : forall i f, nth_error (first :: others) i = Some f -> fc_kind f = match i with 0 => kind | S _ => next_kind kind end).
    { intros [|i] f Ef; cbn [nth_error] in Ef; [injection Ef as <-; exact K1|]. rewrite Forall_forall in K2. apply K2. eapply nth_error_In. exact Ef. }
    exists (map (fun f => source_looks k kind (fc_compounds f)) (first :: others)). rewrite !map_length. split; [reflexivity|]. split.
    { rewrite <- flat_map_concat_map, looks_flat, looks_styled. apply (@thinned_map u _ _ (fun f => look_of (style_for k kind :: styles_over k f))), Sh. } split.
    + intros i part Ei. rewrite nth_error_map in Ei. destruct (nth_error (first :: others) i) as [f|] eqn:Ef; [|discriminate]. injection Ei as <-.
      destruct (R i (Normal f)) as (row & dr & bar & Dr & Er & Em & Ew); [rewrite nth_error_map, Ef; reflexivity|]. cbn [line_drawn] in Dr. destruct (@composite_look u k f w dr Hk H32 (NF f (nth_error_In _ _ Ef)) Dr) as (a & b & b' & a' & Es & Ea).
      exists a, b, b', a'. split.
      * rewrite (PA i row dr bar Er Em Ew), Es. specialize (KF i f Ef). destruct i as [|i]; rewrite KF; [reflexivity|]. rewrite next_style, looks_next, (next_mark_look k _ i). reflexivity.
      * intros Oc. destruct (Cd Oc) as (vl & Ec & Hv & Lv). rewrite Ec in Ef. destruct i as [|[|i]]; try discriminate Ef. injection Ef as <-. cbn [of_table fc_kind fc_spacing fc_compounds visible_length] in *.
        destruct (margins_in (code_block k) (Some w)) as (lm & rm) eqn:Eg. destruct (Ea (snd q) lm rm eq_refl eq_refl eq_refl Lv) as (-> & -> & X). split; [reflexivity|]. split; [reflexivity|].
        rewrite looks_styled, map_map. cbn [fst]. rewrite <- text_styled, <- Hv. exact X.
    + intros Oc. destruct (Cd Oc) as (vl & -> & _). reflexivity.
  - destruct M as ((G1 & Hrows & Ht) & Hc & Hr & N' & Gs & Hcl). set (ws := fst q) in *. cbn [of_table].
    destruct (optional_completions (ls_align (table k)) (table_line_width ws) (Some w)) as [lp rp] eqn:Eo. pose proof (shared_opt_spec (ls_align (table k)) (table_line_width ws) (Some w)) as So. rewrite Eo in So. cbn [fst].
    assert (Hs : same_widths u no_special) by (intros ? ? X; discriminate X). rewrite Forall_forall in Hc, Hr. assert (Hv1 : chw u (vertical (table_border_chars k)) = 1) by (narrow Hn).
    assert (Hwb : forall cs m, sumw (chw u) (map fst (blanks cs m)) = m) by (intros cs m; apply (@blanks_width u cs m H32)).
    assert (Q : forall d x, nth_error g d = Some x -> exists row ds srow (A : list (char * CStyle)), x = TableRow row /\ Forall (fun c => fc_kind c = KParagraph) row /\ has_columns ws x /\ Forall (in_room u k) row
       /\ nth_error rows (length LA - s + d) = Some srow /\ Forall2 (fun c dc => composite_drawn no_special k c None false false dc) row ds
       /\ row_chars srow = with_style (blanks (ls_cs (paragraph k)) lp ++ (flat_map (fun dc => (vertical (table_border_chars k), ls_cs (table k)) :: dc) ds ++ [(vertical (table_border_chars k), ls_cs (table k))]) ++ A)).
    { intros d x Ex. destruct (R d x Ex) as (srow & dr & bar & Dr & Er & Em & _). pose proof (nth_error_In _ _ Ex) as Ix. pose proof (Hc _ Ix) as Hcx. pose proof (Hr _ Ix) as Hrx.
      rewrite Forall_forall in Hrows. destruct (Hrows x Ix) as (row & -> & HK). cbn [line_drawn line_in_room] in *. destruct Dr as (lp' & rp' & ds & So' & HF & ->).
      rewrite (columns_room Hcx) in So'. pose proof (@shared_unique _ _ _ _ _ _ _ So So') as <-. exists row, ds, srow, (blanks (ls_cs (paragraph k)) rp' ++ bar). repeat (split; [solve [auto]|]).
      rewrite Em. f_equal. rewrite <- !app_assoc. reflexivity. }
    split.
    + intros j Hj. assert (NC : forall x row c, In x g -> x = TableRow row -> nth_error row j = Some c -> ~ In c_ellipsis (text_of (fc_compounds c))).
      { intros x row c Ix -> Ec I. pose proof (Ht j Hj) as Htj. assert (V : In c_ellipsis (map fst (flat_map (fun c => visible_of u (S_Wrap.styled (fc_compounds c))) (column j g)))).
        { rewrite <- visible_of_flat, visible_map. unfold visible. apply filter_In. split; [|rewrite E2; cbn [negb andb]; apply Nat.ltb_lt; lia]. rewrite flat_text. apply in_flat_map. exists c. split; [|exact I].
          unfold column. apply in_flat_map. exists (TableRow row). split; [exact Ix|]. rewrite Ec. left. reflexivity. }
        rewrite Htj, visible_map, source_text in V. unfold visible in V. apply filter_In in V as (V & _). cbn [source_cell] in V. destruct (nth_error cells j) as [c0|] eqn:E0; [|exact V]. rewrite Forall_forall in NE. exact (NE c0 (nth_error_In _ _ E0) V). }
      replace (match nth_error cells j with Some c => source_looks k KParagraph (mc_compounds c) | None => [] end) with (map (fun x => (fst x, look_of (style_for k KParagraph :: styles_over k (snd x)))) (source_styled j (MTableRow cells))).
      2:{ cbn [source_styled]. destruct (nth_error cells j); [rewrite looks_styled; reflexivity|reflexivity]. }
      rewrite (@visible_of_map u _ _ (fun f => look_of (style_for k KParagraph :: styles_over k f))), <- (Ht j Hj).
      rewrite <- visible_of_flat, <- (@visible_of_map u _ _ (fun f => look_of (style_for k KParagraph :: styles_over k f))), <- looks_flat. rewrite visible_of_flat.
      unfold look_block. rewrite visible_of_flat.
      rewrite (@flat_nth _ _ (fun y => visible_of u (look_row (term_run u tm out) (x0 + lp + edge ws j + 1) y (nth j ws 0))) (fun x => match x with TableRow row => match nth_error row j with Some c => visible_of u (source_looks k KParagraph (fc_compounds c)) | None => [] end | _ => [] end) g).
      * clear. induction g as [|x g IH]; [reflexivity|]. cbn [flat_map column]. rewrite flat_map_app. unfold column in IH. rewrite IH. f_equal. destruct x as [|row| |]; try reflexivity. destruct (nth_error row j); [cbn [flat_map]; symmetry; apply app_nil_r|reflexivity].
      * intros d x Ex. destruct (Q d x Ex) as (row & ds & srow & A & -> & HK & Hcx & Hrx & Er & HF & Em). destruct (nth_error row j) as [c|] eqn:Ec; [|apply nth_error_None in Ec; rewrite (columns_length Hcx) in Ec; lia].
        destruct (@row_cell u k row ds j c Hn Hrx HF Ec) as (a & m & b & Es & W1 & W2 & Cm). rewrite Es in Em. rewrite (columns_room Hcx) in W1. rewrite (room_nth _ Hcx Ec) in W2.
        rewrite <- (@cell_look u k c m Hk Wh); [|exact (NC _ row c (nth_error_In _ _ Ex) eq_refl Ec)|rewrite Forall_forall in HK; apply HK; eapply nth_error_In; exact Ec|exact Cm].
        rewrite <- (visible_placed u (worn_text m)). rewrite <- (PL d srow (blanks (ls_cs (paragraph k)) lp ++ a) m (b ++ A) Er) by (rewrite Em, <- !app_assoc; reflexivity).
        rewrite map_app, sumw_app, Hwb. unfold drawn_width in W1, W2. rewrite W1, W2. f_equal. f_equal. lia.
    + intros j d Hj Hd. destruct (nth_error g d) as [x|] eqn:Ex; [|apply nth_error_None in Ex; lia]. destruct (Q d x Ex) as (row & ds & srow & A & -> & HK & Hcx & Hrx & Er & HF & Em).
      destruct (@row_edge u no_special k row ds j Hn Hs Hrx HF) as (a & b & Es & W1); [rewrite (columns_length Hcx); exact Hj|]. cbn [fst snd] in Es. rewrite Es in Em. rewrite (columns_room Hcx) in W1.
      pose proof (PL d srow (blanks (ls_cs (paragraph k)) lp ++ a) [(vertical (table_border_chars k), ls_cs (table k))] (b ++ A) Er) as X. rewrite map_app, sumw_app, Hwb in X. unfold drawn_width in W1. rewrite W1 in X. cbn [map fst] in X.
      replace (sumw (chw u) [vertical (table_border_chars k)]) with 1 in X by (rewrite sumw_cons, Hv1; reflexivity). rewrite Nat.add_assoc in X. rewrite X.
      * unfold placed_of, worn_text. cbn [map filter fst snd]. rewrite Hv1, look_worn. reflexivity.
      * rewrite Em. rewrite <- !app_assoc. reflexivity.
  - destruct M as ((r & ->) & Hc & Hr & N' & Gs & _). set (ws := fst q) in *. cbn [of_table length]. split; [reflexivity|]. inversion Hc as [|? ? Hcx _]; subst. destruct (R 0 _ eq_refl) as (row & dr & bar & Dr & Er & Em & _). cbn [line_drawn has_columns] in *.
    destruct (optional_completions (ls_align (table k)) (table_line_width ws) (Some w)) as [lp rp] eqn:Eo. pose proof (shared_opt_spec (ls_align (table k)) (table_line_width ws) (Some w)) as So. rewrite Eo in So. cbn [fst].
    destruct Hcx as (Hwr & _); destruct Dr as (lp' & rp' & So' & ->); rewrite Hwr in *; pose proof (@shared_unique _ _ _ _ _ _ _ So So') as <-; exists (position r).
    destruct (@rule_text_seen u k ws (position r) Hn N') as (W1 & W2).
    set (rd := match position r with Top => rule_drawn k (top_left_corner (table_border_chars k)) (top_junction (table_border_chars k)) (top_right_corner (table_border_chars k)) ws
      | Other => rule_drawn k (left_junction (table_border_chars k)) (cross (table_border_chars k)) (right_junction (table_border_chars k)) ws
      | Bottom => rule_drawn k (bottom_left_corner (table_border_chars k)) (bottom_junction (table_border_chars k)) (bottom_right_corner (table_border_chars k)) ws end) in *.
    assert (Ert : rule_text k ws (position r) = map fst rd) by (unfold rule_text, rd; destruct (position r); reflexivity).
    assert (Erd : rd = map (fun c => (c, ls_cs (table k))) (map fst rd)).
    { assert (X : forall a b c, rule_drawn k a b c ws = map (fun c => (c, ls_cs (table k))) (map fst (rule_drawn k a b c ws))).
      { intros a b c. rewrite map_map. rewrite <- map_id at 1. apply map_ext_in. intros (ch & cs) I. cbn [fst]. f_equal.
        assert (Hr0 : forall n, In (ch, cs) (repeat (horizontal (table_border_chars k), ls_cs (table k)) n) -> cs = ls_cs (table k)) by (intros n J; apply repeat_spec in J; congruence).
        unfold rule_drawn in I. destruct I as [I|I]; [congruence|]. apply in_app_or in I as [I|[I|[]]]; [|congruence]. destruct ws as [|w0 ws0]; [contradiction I|]. apply in_app_or in I as [I|I]; [eauto|].
        apply in_flat_map in I as (n & _ & [I|I]); [congruence|eauto]. }
      unfold rd. destruct (position r); apply X. }
    pose proof (PL 0 row (blanks (ls_cs (paragraph k)) lp) rd (blanks (ls_cs (paragraph k)) rp' ++ bar) Er ltac:(rewrite Em, <- !app_assoc; reflexivity)) as X. rewrite (@blanks_width u _ lp H32 : sumw (chw u) (map fst (blanks _ lp)) = lp) in X.
    rewrite Nat.add_0_r in X. rewrite <- Ert, W1 in X. rewrite X. rewrite Erd, <- Ert. unfold worn_text. rewrite map_map. cbn [fst snd]. rewrite look_worn. rewrite <- W2 at 2.
    generalize (rule_text k ws (position r)). clear. intros l. unfold placed_of, seen_chars. induction l as [|c l IH]; [reflexivity|]. cbn [map filter fst]. destruct (0 <? chw u c); cbn [map]; rewrite IH; reflexivity.
  - subst g. split; [reflexivity|]. destruct (R 0 _ eq_refl) as (row & dr & bar & -> & Er & Em & Ew). pose proof (PA 0 row _ bar Er Em Ew) as X. rewrite Nat.add_0_r in X. rewrite X, worn_repeat. apply placed_repeat. narrow Hn.
  - subst g. split; [reflexivity|]. destruct (R 0 _ eq_refl) as (row & dr & bar & -> & Er & Em & Ew). pose proof (PA 0 row _ bar Er Em Ew) as X. rewrite Nat.add_0_r in X. rewrite X, worn_repeat. apply placed_repeat. narrow Hn.
Qed.

(** ** C106 *)
Definition block_widths (gq : list (list FmtLine * (list nat * nat))) : list nat := map (fun x => snd (snd x)) gq.
Lemma blocks_same text gq : alike text (map snd gq) -> same_blocks text (block_widths gq).
Proof.
  intros A i l l' b b' H1 H2 H3 H4 C1 C2. unfold block_widths in *. rewrite nth_error_map in H3, H4. destruct (nth_error gq i) as [x|] eqn:X; [|discriminate]. destruct (nth_error gq (S i)) as [x'|] eqn:X'; [|discriminate]. injection H3 as <-. injection H4 as <-. f_equal.
  apply (A i l l' (snd x) (snd x') H1 H2); [rewrite nth_error_map, X; reflexivity|rewrite nth_error_map, X'; reflexivity|right; auto].
Qed.
Lemma made_at u k w text gq i l g q : Forall2 (fun l gq => made u k w l (fst gq) (snd gq)) text gq -> nth_error text i = Some l -> nth_error gq i = Some (g, q) -> made u k w l g q.
Proof. intros HM. revert i. induction HM as [|l0 gq0 text gq M0 _ IH]; intros [|i] Hi E2; try discriminate; cbn in *; [injection Hi as ->; injection E2 as ->; exact M0|eauto]. Qed.
(** The ellipsis is a char which is seen *)
Definition ellipsis_seen (u : unicode) : Prop := chw u c_ellipsis <> 0 /\ is_white u c_ellipsis = false.

(** A text with all kinds of lines, drawn in an area of a terminal having its default style. Each char of a source line is seen, in its rows, with the look of its line and of the compounds it's in;
    the marks, the borders of tables, the rules and the blanks have their own ones. The rows after the text have the look of paragraphs. *)
Theorem C106_area : forall u k um text a, usual u no_special k ->
  (6 <= a_width a)%N -> on_screen a -> margins_not_just k (N.to_nat (a_width a)) ->
  Forall (area_source u k (N.to_nat (a_width a) - 1)) text -> is_white u 32%N = true -> ellipsis_seen u -> Forall no_ellipsis text ->
  exists t out ps bws, area_text u k um text a = Ret t /\ write_in_area_on u no_special k um text a = Ret out
  /\ length ps = length text /\ length bws = length text /\ Forall (fun p => 1 <= l_rows p) ps /\ sum (map l_rows ps) = length (txt_lines t) /\ aligned text ps /\ same_blocks text bws
  /\ forall tm, t_pen tm = pen0 ->
     (forall i l p bw, nth_error text i = Some l -> nth_error ps i = Some p -> nth_error bws i = Some bw ->
      let n := sum (map l_rows (firstn i ps)) in n + l_rows p <= N.to_nat (a_height a) ->
      looks_line u k (term_run u tm out) p bw l (N.to_nat (a_left a)) (N.to_nat (a_top a) + n) (N.to_nat (a_width a)))
     /\ (forall j, length (txt_lines t) <= j < N.to_nat (a_height a) ->
         look_row (term_run u tm out) (N.to_nat (a_left a)) (N.to_nat (a_top a) + j) (N.to_nat (a_width a)) = repeat (32%N, look_of [ls_cs (paragraph k)]) (N.to_nat (a_width a))).
Proof.
  intros u k um text a U W S M T Wh (El1 & El2) NE. destruct (@C76_area_partial u no_special k um _ a U W S M T) as (t & out & Et & E & HF).
  destruct U as (Hk & Hu & H2 & Hn & Hs & Hb). pose proof Et as Et'. unfold area_text in Et'. rewrite subN_ret, bind_ret in Et' by lia. replace (N.to_nat (a_width a - 1)) with (N.to_nat (a_width a) - 1) in Et' by lia.
  destruct (@text_made u k um (N.to_nat (a_width a) - 1) Hu H2 ltac:(lia) _ text t (le_n _) T Et') as (gq & El & HM & HA).
  set (w := N.to_nat (a_width a)) in *. exists t, out, (laids k w text gq), (block_widths gq). split; [exact Et|]. split; [exact E|]. destruct (@laids_rows u k w _ text gq HM) as (P1 & P2 & P3). split; [exact P1|].
  split; [unfold block_widths; rewrite map_length; symmetry; exact (Forall2_len HM)|]. split; [exact P3|].
  split; [rewrite P2, El, length_concat'; reflexivity|]. split; [apply laids_aligned, HA|]. split; [apply blocks_same, HA|].
  intros tm Pt. destruct (HF (t_x tm) (t_y tm)) as (_ & rows & Er & Lr & HR). assert (C : clean out) by (eapply clean_area; left; exact E). assert (F : faithful out) by (eapply C80_area; left; exact E). split.
  - intros i l p bw Hi Hp Hbw n Hn'. apply laids_nth in Hp as (l' & g & q & E1 & E2 & ->). assert (l' = l) as -> by congruence. cbn [l_rows laid] in Hn'.
    unfold block_widths in Hbw. rewrite nth_error_map, E2 in Hbw. injection Hbw as <-. cbn [snd].
    destruct (@line_at _ (map fst gq) i g) as (LB & EB); [rewrite nth_error_map, E2; reflexivity|]. rewrite EB in El.
    assert (En : n = length (concat (firstn i (map fst gq)))) by (unfold n; rewrite length_concat', <- firstn_map, P2, firstn_map; reflexivity).
    rewrite En in *. rewrite Forall_forall in NE.
    pose proof (@line_look u k tm out rows (N.to_nat (a_left a)) (N.to_nat (a_top a)) w w (w - 1) 0 None (txt_lines t) (concat (firstn i (map fst gq))) g LB l q Hk Hn Wh El1 El2 Hb C F Pt Er HR eq_refl El (@made_at u k _ text gq i l g q HM Hi E2) (NE l (nth_error_In _ _ Hi))) as X. rewrite Nat.sub_0_r in X.
    apply X; lia.
  - intros j Hj. destruct (nth_error rows j) as [row|] eqn:Ej; [|apply nth_error_None in Ej; lia]. destruct (HR j row Ej) as (_ & dr & bar & Ed & Dl & ->). cbn [plus] in Dl. destruct (nth_error (txt_lines t) j) eqn:Q; [assert (j < length (txt_lines t)) by (apply nth_error_Some; congruence); lia|]. subst dr.
    pose proof (@part_look u out tm (N.to_nat (a_left a)) (N.to_nat (a_top a)) w rows C F Pt Er (fun j r E => proj1 (HR j r E)) j row [] _ [] Ej Ed) as X. assert (H32 : chw u 32%N = 1) by (narrow Hn).
    rewrite (@blanks_width u _ w H32 : sumw (chw u) (map fst (blanks _ w)) = w) in X. cbn [map] in X. replace (sumw (chw u) []) with 0 in X by reflexivity. rewrite Nat.add_0_r in X. rewrite X. unfold blanks. rewrite worn_repeat. apply placed_repeat, H32.
Qed.
Print Assumptions C106_area.
(** The scroll may be too far, after a resize *)
Lemma look_anywhere : forall u k um text a, usual u no_special k ->
  (6 <= a_width a)%N -> (1 <= a_height a)%N -> on_screen a -> margins_not_just k (N.to_nat (a_width a)) ->
  Forall (area_source u k (N.to_nat (a_width a) - 1)) text -> is_white u 32%N = true -> ellipsis_seen u -> Forall no_ellipsis text ->
  exists t ps bws, area_text u k um text a = Ret t
  /\ length ps = length text /\ length bws = length text /\ Forall (fun p => 1 <= l_rows p) ps /\ sum (map l_rows ps) = length (txt_lines t) /\ aligned text ps /\ same_blocks text bws
  /\ (length (txt_lines t) < N.to_nat 65536 -> forall s, scroll_far a (length (txt_lines t)) s ->
  exists out, mad_write_on u no_special k um text a s = Ret out
  /\ let bar := N.to_nat (a_height a) <? length (txt_lines t) in
     let w := if bar then N.to_nat (a_width a) - 1 else N.to_nat (a_width a) in
     forall tm, t_pen tm = pen0 ->
     (forall i l p bw, nth_error text i = Some l -> nth_error ps i = Some p -> nth_error bws i = Some bw ->
      let n := sum (map l_rows (firstn i ps)) in N.to_nat s <= n -> n + l_rows p <= N.to_nat s + N.to_nat (a_height a) ->
      looks_line u k (term_run u tm out) p bw l (N.to_nat (a_left a)) (N.to_nat (a_top a) + (n - N.to_nat s)) w)
     /\ (bar = true -> exists from to, forall j, j < N.to_nat (a_height a) ->
         look_row (term_run u tm out) (N.to_nat (a_left a) + w) (N.to_nat (a_top a) + j) 1
         = [char_look (if (from <=? j) && (j <? to) then thumb (scrollbar k) else track (scrollbar k))])).
Proof.
  intros u k um text a U W Hh S M T Wh (El1 & El2) NE. destruct (@view_anywhere u no_special k um _ a 0%N U W Hh S M T) as (t & Et & _). pose proof U as (Hk & Hu & H2 & Hn & Hs & Hb).
  pose proof Et as Et'. unfold area_text in Et'. rewrite subN_ret, bind_ret in Et' by lia. replace (N.to_nat (a_width a - 1)) with (N.to_nat (a_width a) - 1) in Et' by lia.
  destruct (@text_made u k um (N.to_nat (a_width a) - 1) Hu H2 ltac:(lia) _ text t (le_n _) T Et') as (gq & El & HM & HA).
  set (w := if N.to_nat (a_height a) <? length (txt_lines t) then N.to_nat (a_width a) - 1 else N.to_nat (a_width a)).
  exists t, (laids k w text gq), (block_widths gq). split; [exact Et|]. destruct (@laids_rows u k w _ text gq HM) as (P1 & P2 & P3). split; [exact P1|]. split; [unfold block_widths; rewrite map_length; symmetry; exact (Forall2_len HM)|]. split; [exact P3|].
  split; [rewrite P2, El, length_concat'; reflexivity|]. split; [apply laids_aligned, HA|]. split; [apply blocks_same, HA|].
  intros L1 s L2. destruct (@view_anywhere u no_special k um _ a s U W Hh S M T) as (t' & Et2 & V). assert (t' = t) as -> by congruence. destruct (V L1 L2) as (out & sb & E & Hsb & HF).
  assert (Hw : match sb with None => N.to_nat (a_width a) | Some _ => N.to_nat (a_width a) - 1 end = w).
  { unfold w. destruct (Nat.ltb_spec (N.to_nat (a_height a)) (length (txt_lines t))) as [L|L]; destruct sb as [b|]; try reflexivity.
    - exfalso. apply Hsb in L. congruence.
    - exfalso. assert (Some b <> None) as X by discriminate. apply Hsb in X. lia. }
  rewrite Hw in HF. exists out. split; [exact E|]. cbv zeta. fold w.
  intros tm Pt. destruct (HF (t_x tm) (t_y tm)) as (_ & rows & Er & Lr & HR). assert (C : clean out) by (eapply clean_area; right; eexists; exact E). assert (F : faithful out) by (eapply C80_area; right; eexists; exact E). split.
  - intros i l p bw Hi Hp Hbw Hn1 Hn2. apply laids_nth in Hp as (l' & g & q & E1 & E2 & ->). assert (l' = l) as -> by congruence. cbn [l_rows laid] in Hn2. set (n := sum _) in *.
    unfold block_widths in Hbw. rewrite nth_error_map, E2 in Hbw. injection Hbw as <-. cbn [snd].
    destruct (@line_at _ (map fst gq) i g) as (LB & EB); [rewrite nth_error_map, E2; reflexivity|]. rewrite EB in El.
    assert (En : n = length (concat (firstn i (map fst gq)))) by (unfold n; rewrite length_concat', <- firstn_map, P2, firstn_map; reflexivity).
    rewrite En in *. assert (HW : match sb with None => w = N.to_nat (a_width a) | Some _ => w + 1 = N.to_nat (a_width a) end) by (clear - Hw W; destruct sb; lia). rewrite Forall_forall in NE.
    eapply (@line_look u k tm out rows (N.to_nat (a_left a)) (N.to_nat (a_top a)) (N.to_nat (a_width a)) w (N.to_nat (a_width a) - 1) (N.to_nat s) sb (txt_lines t) (concat (firstn i (map fst gq))) g LB l q Hk Hn Wh El1 El2 Hb C F Pt Er HR HW El (@made_at u k _ text gq i l g q HM Hi E2) (NE l (nth_error_In _ _ Hi))); [clear - Hw; destruct sb; lia|lia|lia].
  - intros Hbar. destruct sb as [(b1 & b2)|]; [|exfalso; apply Nat.ltb_lt in Hbar; apply Hsb in Hbar; congruence]. set (top := N.to_nat (a_top a)) in *. exists (N.to_nat b1 - top), (N.to_nat b2 + 1 - top). intros j Hj.
    destruct (nth_error rows j) as [row|] eqn:Ej; [|apply nth_error_None in Ej; lia]. destruct (HR j row Ej) as (Tl & dr & bar & Ed & _ & B1 & B2).
    inversion Hb as [|? ? Hb1 Hb2]; subst. inversion Hb2 as [|? ? Hb3 _]; subst.
    assert (Eb : bar = [drawn_char (if (N.to_nat b1 - top <=? j) && (j <? N.to_nat b2 + 1 - top) then thumb (scrollbar k) else track (scrollbar k))]).
    { destruct ((N.to_nat b1 - top <=? j) && (j <? N.to_nat b2 + 1 - top)) eqn:Q; [apply B1|apply B2]; clear - Q; lia. }
    set (c := if (N.to_nat b1 - top <=? j) && (j <? N.to_nat b2 + 1 - top) then thumb (scrollbar k) else track (scrollbar k)) in *. assert (Wc : chw u (fst (drawn_char c)) = 1) by (unfold c; destruct (_ && _); assumption).
    assert (Wd : sumw (chw u) (map fst dr) = w).
    { pose proof (@tiles_width _ _ _ _ _ Tl) as Q. apply (f_equal (map fst)) in Ed. unfold row_chars, with_style in Ed. rewrite !map_map in Ed. cbn [fst] in Ed. rewrite map_app in Ed. change (map s_char row = map fst dr ++ map fst bar) in Ed. rewrite Ed, sumw_app, Eb in Q. cbn [map] in Q. rewrite sumw_cons, Wc in Q.
      replace (sumw (chw u) []) with 0 in Q by reflexivity. clear - Q Hw W. lia. }
    pose proof (@part_look u out tm (N.to_nat (a_left a)) top (N.to_nat (a_width a)) rows C F Pt Er (fun j r E => proj1 (HR j r E)) j row dr bar [] Ej ltac:(rewrite app_nil_r; exact Ed)) as X. rewrite Wd, Eb in X. cbn [map] in X. rewrite sumw_cons, Wc in X. replace (1 + sumw (chw u) []) with 1 in X by reflexivity. rewrite X.
    unfold placed_of, worn_text. cbn [map filter fst]. rewrite Wc. change (0 <? 1) with true. cbv iota. unfold char_look. cbn [drawn_char fst snd]. rewrite look_worn. reflexivity.
Qed.
(** The same in a scrollable view, for the source lines whose rows are shown with this scroll. When there's a scrollbar, the cells of the last column have the look of its thumb or of its track. *)
Theorem C106_view : forall u k um text a, usual u no_special k ->
  (6 <= a_width a)%N -> (1 <= a_height a)%N -> on_screen a -> margins_not_just k (N.to_nat (a_width a)) ->
  Forall (area_source u k (N.to_nat (a_width a) - 1)) text -> is_white u 32%N = true -> ellipsis_seen u -> Forall no_ellipsis text ->
  exists t ps bws, area_text u k um text a = Ret t
  /\ length ps = length text /\ length bws = length text /\ Forall (fun p => 1 <= l_rows p) ps /\ sum (map l_rows ps) = length (txt_lines t) /\ aligned text ps /\ same_blocks text bws
  /\ (length (txt_lines t) < N.to_nat 65536 -> forall s, N.to_nat s <= length (txt_lines t) - N.to_nat (a_height a) ->
  exists out, mad_write_on u no_special k um text a s = Ret out
  /\ let bar := N.to_nat (a_height a) <? length (txt_lines t) in
     let w := if bar then N.to_nat (a_width a) - 1 else N.to_nat (a_width a) in
     forall tm, t_pen tm = pen0 ->
     (forall i l p bw, nth_error text i = Some l -> nth_error ps i = Some p -> nth_error bws i = Some bw ->
      let n := sum (map l_rows (firstn i ps)) in N.to_nat s <= n -> n + l_rows p <= N.to_nat s + N.to_nat (a_height a) ->
      looks_line u k (term_run u tm out) p bw l (N.to_nat (a_left a)) (N.to_nat (a_top a) + (n - N.to_nat s)) w)
     /\ (bar = true -> exists from to, forall j, j < N.to_nat (a_height a) ->
         look_row (term_run u tm out) (N.to_nat (a_left a) + w) (N.to_nat (a_top a) + j) 1
         = [char_look (if (from <=? j) && (j <? to) then thumb (scrollbar k) else track (scrollbar k))])).
Proof.
  intros u k um text a U W Hh S M T Wh El NE. destruct (@look_anywhere u k um text a U W Hh S M T Wh El NE) as (t & ps & bws & H1 & H2 & H3 & H4 & H5 & H6 & H7 & V). exists t, ps, bws. do 7 (split; [assumption|]).
  intros L1 s L2. apply V; [exact L1|left; exact L2].
Qed.
Print Assumptions C106_view.

(** ** A paragraph with a bold word and a word of code in italic, on two rows; a title; a block of two lines of code; a table with a bold cell *)
Definition look_text : list MLine :=
  [MNormal (mkMC MParagraph [mkCompound (letters 6 ++ [32]%N) false false false false; mkCompound (repeat 98%N 5 ++ [32]%N) true false false false; mkCompound (repeat 99%N 9) false true true false]);
   MNormal (mkMC (MHeader 1) [mkCompound (letters 2) false false false false]);
   MNormal (mkMC MCode [plain [98; 32; 32; 98]%N]); MNormal (mkMC MCode [plain [32; 99]%N]);
   MTableRow [mkMC MParagraph [plain (letters 1)]; mkMC MParagraph [mkCompound (repeat 98%N 2) true false false false]]].
Lemma look_source : Forall (area_source demo skin_default 17) look_text.
Proof.
  assert (HN : forall c, drawn_kind (kind_of (mc_style c)) -> lead skin_default (kind_of (mc_style c)) + 2 <= 17 ->
    (kind_of (mc_style c) = KCode -> sumw (chw demo) (text_of (mc_compounds c)) <= 17) -> area_source demo skin_default 17 (MNormal c)).
  { intros c H0 H1 H2. split; [exact H0|]. intros lm rm (ls & El & Em). destruct (default_margins _ El) as [E1 E2].
    unfold margins_in in Em. rewrite E1, E2 in Em. cbn in Em. injection Em as <- <-. split; [lia|]. intros H. specialize (H2 H). lia. }
  unfold look_text. repeat (apply Forall_cons; [|]); try apply Forall_nil.
  all: first [exact I | apply HN; [split; [first [discriminate|cbn; lia]|cbn; try exact I; lia]|cbn; lia|first [discriminate|intros _; vm_compute; lia]] | split; [discriminate|cbn; lia] | split; [discriminate|split; [cbn; lia|repeat constructor]]].
Qed.
Definition shown_looks (k : MadSkin) (text : list MLine) (a : Area) : list (list (char * pen)) :=
  match write_in_area_on demo no_special k 1000 text a with
  | Ret out => map (fun j => look_row (term_run demo full_term out) (N.to_nat (a_left a)) (N.to_nat (a_top a) + j) (N.to_nat (a_width a))) (seq 0 (N.to_nat (a_height a)))
  | _ => []
  end.
Example C106_example : usual demo no_special skin_default /\ margins_not_just skin_default 18 /\ Forall (area_source demo skin_default 17) look_text
  /\ is_white demo 32%N = true /\ ellipsis_seen demo /\ Forall no_ellipsis look_text /\ on_screen (mkArea 3 2 18 7) /\ t_pen full_term = pen0
  /\ let code := mkPen (AnsiValue 249) (AnsiValue 235) in let bold := mkPen Reset Reset 4 in let border := (9474%N, mkPen (AnsiValue 239) Reset 0) in let blank := (32%N, pen0) in
     shown_looks skin_default look_text (mkArea 3 2 18 7)
     = [repeat (97%N, pen0) 6 ++ [blank] ++ repeat (98%N, bold) 5 ++ [(32%N, bold)] ++ repeat blank 5;
        repeat (99%N, code 16%N) 9 ++ repeat blank 9;
        repeat blank 8 ++ repeat (97%N, mkPen Reset Reset 36) 2 ++ repeat blank 8;
        [(98%N, code 0%N); (32%N, code 0%N); (32%N, code 0%N); (98%N, code 0%N)] ++ repeat blank 14;
        [(32%N, code 0%N); (99%N, code 0%N); (32%N, code 0%N); (32%N, code 0%N)] ++ repeat blank 14;
        [border; blank; (97%N, pen0); blank; border; (98%N, bold); (98%N, bold); blank; border] ++ repeat blank 9;
        repeat blank 18].
Proof.
  split; [exact demo_usual|]. split; [intros kind ls El; destruct (default_margins _ El) as [-> ->]; discriminate|]. split; [exact look_source|].
  split; [reflexivity|]. split; [split; [vm_compute; discriminate|reflexivity]|]. split.
  { assert (N : forall s, existsb (N.eqb c_ellipsis) s = false -> ~ In c_ellipsis s) by (intros s E I; apply Bool.not_true_iff_false in E; apply E, existsb_exists; exists c_ellipsis; split; [exact I|apply N.eqb_refl]).
    unfold look_text. repeat (apply Forall_cons; [|]); try apply Forall_nil; cbn [no_ellipsis]; repeat (apply Forall_cons; [|]); try apply Forall_nil; apply N; vm_compute; reflexivity. }
  split; [split; reflexivity|]. split; [reflexivity|]. vm_compute. reflexivity.
Qed.
(** With an ellipsis in the source, a char may be seen with another look than the one of its line: the ellipsis of a text which is bold isn't bold *)
Example C106_ellipsis : let text := [MNormal (mkMC MParagraph [mkCompound [c_ellipsis] true false false false])] in ~ Forall no_ellipsis text
  /\ shown_looks skin_default text (mkArea 0 0 6 1) = [(c_ellipsis, pen0) :: repeat (32%N, pen0) 5]
  /\ source_looks skin_default KParagraph [mkCompound [c_ellipsis] true false false false] = [(c_ellipsis, mkPen Reset Reset 4)].
Proof. split; [intros H; inversion H as [|? ? X _]; apply X; left; reflexivity|]. split; vm_compute; reflexivity. Qed.
