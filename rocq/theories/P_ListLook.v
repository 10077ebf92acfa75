(** * What is read in a list on the terminal has the looks told by its styles, and the selected row is marked (C107) *)
From Verif Require Import Base L_Base Demo M_Style M_Fit M_View S_View L_View S_Fit L_Fit M_Render S_Render L_Render M_List S_List L_List L_List2.
From Verif Require Import S_Pen S_Paint S_Read S_ListRead S_Look S_ListLook P_List P_ListRead.
From Verif Require P_Paint P_Pen P_Look.
Set Implicit Arguments.
Open Scope nat_scope.

(** ** The inks of the lines *)

(** Chars with the look of their style *)
Definition inks (l : list (char * CStyle)) : list (option char * pen) := map (fun x => (Some (fst x), worn (Some (snd x)))) l.
Lemma given_drawn : forall out, Forall inline out -> map (fun x => (fst x, worn (snd x))) (S_Pen.given out) = inks (drawn out).
Proof.
  unfold inks. induction 1 as [|c l H _ IH]; [reflexivity|]. destruct c; try contradiction H; cbn [S_Pen.given]; unfold drawn in *; cbn [flat_map]; rewrite ?map_app, ?IH, ?map_map; reflexivity.
Qed.
Lemma faithful_inks out : Forall inline out -> faithful out -> inked pen0 out = inks (drawn out).
Proof. intros F (E & _). rewrite E. apply given_drawn, F. Qed.
Lemma title_faithful {T} (v : ListView T) out : title_line v = Ret out -> faithful out.
Proof.
  unfold title_line. intros E. apply bind_Ret_inv in E as (ts & E & E2). injection E2 as <-. apply P_Pen.faithful_join; [apply P_Pen.sc_faithful|]. eapply P_Pen.map_out_Forall; [|exact E].
  intros q r Q. unfold title_cmds in Q. do 5 apply bind_Ret_inv in Q as (? & _ & Q). injection Q as <-. unfold write_str. match goal with |- faithful (write_counted_str ?a ?b ?c ?d) => destruct (P_Pen.counted a b c d) as (s & ->) end. apply P_Pen.faithful_styled.
Qed.
Lemma separator_faithful {T} (v : ListView T) out : separator_line v = Ret out -> faithful out.
Proof.
  unfold separator_line. intros E. apply bind_Ret_inv in E as (ts & E & E2). injection E2 as <-. apply P_Pen.faithful_join; [apply P_Pen.sc_faithful|]. eapply P_Pen.map_out_Forall; [|exact E].
  intros q r Q. unfold separator_cmds in Q. apply bind_Ret_inv in Q as (? & _ & Q). injection Q as <-. apply P_Pen.faithful_join; [apply P_Pen.sc_faithful|]. apply Forall_forall. intros z Z. apply in_map_iff in Z as (c & <- & _).
  apply P_Pen.faithful_repeat, P_Pen.sc_faithful.
Qed.
(** The styles of a row, the background of the selection being put under the one of the separators and over the ones of the cells *)
Definition row_styles {T} (v : ListView T) (sel : bool) (d : T) : list (char * CStyle) :=
  pieces (map (fun c => ((c_vbar, if sel then overwrite_with (ground (selection_background v)) (ls_cs (table (lv_skin v))) else ls_cs (table (lv_skin v))),
    drawn (write_counted_str (lc_spacing c) (con (extract c d)) (cell_width (extract c d)) (if sel then cs_set_bg (cell_style (extract c d)) (selection_background v) else cell_style (extract c d))))) (columns v)).
Lemma worn_ground b cs : worn_over (mkPen Reset b 0) cs = worn (Some (overwrite_with (ground b) cs)).
Proof.
  unfold worn, worn_over, overwrite_with, ground, cs_has_attr, attrs_extend. cbn [fg bg attrs p_fg p_bg p_attrs pen0 opt_or]. rewrite !N.lor_0_l. destruct (attrs_has _ _); [reflexivity|]. destruct (fg cs), (bg cs); reflexivity.
Qed.
Lemma selected_over b t cs : bg cs = Some b -> let p := worn_out (mkPen Reset b 0) t in worn_over p cs = worn (Some cs) /\ worn_out p cs = pen0.
Proof.
  intros B p. unfold worn, worn_over. rewrite B. split.
  - destruct (cs_has_attr cs AReset); [reflexivity|]. unfold p, worn_out. cbn [p_fg p_bg p_attrs]. destruct (N.eqb (attrs t) 0); [|reflexivity]. cbn [p_fg p_attrs pen0]. destruct (fg t), (underline t); reflexivity.
  - unfold p, worn_out. destruct (N.eqb (attrs cs) 0); [|reflexivity]. rewrite B. cbn [p_fg p_bg p_attrs]. destruct (N.eqb (attrs t) 0); cbn [p_fg p_attrs pen0]; destruct (fg cs), (underline cs), (fg t), (underline t); reflexivity.
Qed.
Lemma inked_sel b t (A : Type) (f : A -> list cmd) : (forall c, exists cs s, f c = [Styled cs s] /\ bg cs = Some b) -> forall cols,
  inked pen0 (join ([SetBg b] ++ sc_queue (sc_new t c_vbar)) (map f cols)) = inks (pieces (map (fun c => ((c_vbar, overwrite_with (ground b) t), drawn (f c))) cols)).
Proof.
  intros W [|c0 cols]; [reflexivity|].
  assert (G : forall cols c p, (forall cs, bg cs = Some b -> worn_over p cs = worn (Some cs) /\ worn_out p cs = pen0) ->
    inked p (join ([SetBg b] ++ sc_queue (sc_new t c_vbar)) (map f (c :: cols))) = inks (pieces (map (fun c => ((c_vbar, overwrite_with (ground b) t), drawn (f c))) (c :: cols)))).
  { clear c0 cols. induction cols as [|c' cols IH]; intros c p H; destruct (W c) as (cs & s & E & B); destruct (H cs B) as (H1 & H2).
    - cbn [map join pieces body flat_map snd]. rewrite E. cbn [app inked drawn flat_map]. rewrite H1. unfold inks. rewrite !app_nil_r, map_map. reflexivity.
    - change (join ([SetBg b] ++ sc_queue (sc_new t c_vbar)) (map f (c :: c' :: cols))) with (f c ++ ([SetBg b] ++ sc_queue (sc_new t c_vbar)) ++ join ([SetBg b] ++ sc_queue (sc_new t c_vbar)) (map f (c' :: cols))).
      rewrite E. set (rest := join _ (map f (c' :: cols))) in *. cbn [app sc_queue sc_new sc_cache fst snd inked map]. rewrite H1, H2. cbn [p_fg p_bg p_attrs pen0].
      unfold rest. rewrite (IH c' (worn_out (mkPen Reset b 0) t)) by (intros cs' B'; exact (selected_over t cs' B')).
      rewrite worn_ground. cbn [map pieces snd]. rewrite E. unfold body. cbn [flat_map fst snd]. cbn [drawn flat_map]. rewrite app_nil_r. unfold inks. rewrite !map_app, map_map. cbn [map fst snd]. reflexivity. }
  apply G. intros cs B. split; [reflexivity|]. unfold worn_out. rewrite B. destruct (N.eqb (attrs cs) 0); [|reflexivity]. cbn. destruct (fg cs), (underline cs); reflexivity.
Qed.
Lemma row_inks {T} (v : ListView T) sel d : inked pen0 (row_cmds v sel d) = inks (row_styles v sel d).
Proof.
  destruct sel.
  - unfold row_cmds, row_styles. apply (inked_sel (b := selection_background v)). intros c. cbv zeta.
    match goal with |- context [write_counted_str ?a ?b ?c ?d] => destruct (P_Pen.counted a b c d) as (s & ->) end. eexists. exists s. split; reflexivity.
  - rewrite faithful_inks; [unfold row_styles; rewrite row_drawn; reflexivity|apply row_inline|].
    unfold row_cmds. apply P_Pen.faithful_join; [apply P_Pen.sc_faithful|]. apply Forall_forall. intros x X. apply in_map_iff in X as (c & <- & _). cbv zeta.
    match goal with |- context [write_counted_str ?a ?b ?c ?d] => destruct (P_Pen.counted a b c d) as (s & ->) end. apply P_Pen.faithful_styled.
Qed.
Lemma row_pen {T} (v : ListView T) sel d : pen_after pen0 (row_cmds v sel d) = pen0.
Proof.
  destruct sel.
  - pose proof (@P_Pen.row_faithful T (with_selection v (Some 0)) true d ltac:(discriminate)) as (_ & E). exact E.
  - pose proof (@P_Pen.row_faithful T v false d ltac:(discriminate)) as (_ & E). exact E.
Qed.
(** Where the styles are in a row *)
Lemma row_at {T} (v : ListView T) sel d : cells_ok v -> let ws := widths_of (columns v) in
  length (row_styles v sel d) = line_len ws
  /\ forall p c, nth_error (columns v) p = Some c -> let w := N.to_nat (lc_width c) in
     Forall (fun x => snd x = if sel then cs_set_bg (cell_style (extract c d)) (selection_background v) else cell_style (extract c d)) (sub (row_styles v sel d) (col_start ws p) w)
     /\ (0 < p -> nth_error (row_styles v sel d) (col_start ws p - 1) = Some (c_vbar, if sel then overwrite_with (ground (selection_background v)) (ls_cs (table (lv_skin v))) else ls_cs (table (lv_skin v)))).
Proof.
  intros Hc ws. unfold row_styles. set (f := fun c : ListViewColumn T => _).
  assert (Hf : forall c, In c (columns v) -> length (snd (f c)) = N.to_nat (lc_width c)
            /\ cell_drawn (lc_align c) (N.to_nat (lc_width c)) (con (extract c d)) (if sel then cs_set_bg (cell_style (extract c d)) (selection_background v) else cell_style (extract c d)) (snd (f c))).
  { intros c Hi. unfold f. cbn [snd]. rewrite (Hc c d Hi). unfold lc_spacing.
    destruct (write_str_drawn (N.to_nat (lc_width c)) (lc_align c) (con (extract c d)) (if sel then cs_set_bg (cell_style (extract c d)) (selection_background v) else cell_style (extract c d))) as [D1 D2].
    split; assumption. }
  assert (Hw : map (fun sp => length (snd sp)) (map f (columns v)) = ws).
  { rewrite map_map. apply map_ext_in. intros c Hi. apply Hf, Hi. }
  split; [apply pieces_len, Hw|]. intros i c Ei. assert (Hi : In c (columns v)) by (eapply nth_error_In, Ei).
  assert (Ef : nth_error (map f (columns v)) i = Some (fst (f c), snd (f c))) by (rewrite (map_nth_error f _ _ Ei); destruct (f c); reflexivity).
  destruct (pieces_at _ _ Hw Ef) as [P1 P2]. destruct (Hf c Hi) as [F1 (t & F2 & _)]. rewrite F1 in P1. cbv zeta. rewrite P1. split; [|exact P2].
  rewrite F2. apply Forall_map, Forall_forall. reflexivity.
Qed.

(** ** The cells of the terminal *)
Lemma lines_pen u y0 (f : nat -> list cmd) : (forall j, on_line u (y0 + j) (f j)) -> (forall j, pen_after pen0 (f j) = pen0) -> forall n s t j, t_pen t = pen0 -> s <= j < s + n ->
  exists t', t_pen t' = pen0 /\ forall x, t_cell (term_run u t (flat_map f (seq s n))) x (y0 + j) = t_cell (term_run u t' (f j)) x (y0 + j).
Proof.
  intros H P. induction n as [|n IH]; intros s t j Hp L; [lia|]. cbn [seq flat_map]. rewrite P_Paint.term_run_app. destruct (Nat.eq_dec j s) as [->|N].
  - exists t. split; [exact Hp|]. intros x. apply (@lines_kept u y0 f H); lia.
  - destruct (IH (S s) (term_run u t (f s)) j) as (t' & Pt & E); [rewrite P_Paint.run_pen, Hp; apply P|lia|]. exists t'. split; [exact Pt|exact E].
Qed.
Lemma inline_cell u out c x y x' : Forall inline out -> thin u (map fst (drawn out)) -> x' < length (drawn out) ->
  t_cell (term_run u (mkTerm c x y pen0) out) (x + x') y = cell_of (nth x' (inked pen0 out) (None, pen0)).
Proof.
  intros F H L. destruct (@inline_run u out (mkTerm c x y pen0) F H) as (A & _). rewrite A. cbn [t_x t_y t_pen]. rewrite (proj2 (in_line_iff _ _ _ _ _)) by lia. do 2 f_equal. lia.
Qed.
Lemma sc_pen c : pen_after pen0 (sc_queue c) = pen0.
Proof. destruct (P_Pen.sc_faithful c) as (_ & E). exact E. Qed.
Lemma list_cells u T (v : ListView T) sb : well_titled v -> headers (lv_skin v) <> [] -> cells_ok v -> thin_list u v ->
  let a := lv_area v in let ws := widths_of (columns v) in
  let left := N.to_nat (a_left a) in let top := N.to_nat (a_top a) in let lines := N.to_nat (a_height a) - 2 in
  (a_left a + a_width a < U16)%N -> (a_top a + 1 < U16)%N -> (a_top a + a_height a <= U16)%N ->
  lv_scroll v <= length (rows v) -> lv_scrollbar v = Ret sb -> line_len ws <= N.to_nat (a_width a) ->
  exists title sep out, title_line v = Ret title /\ separator_line v = Ret sep /\ lv_write_on v = Ret out /\ forall tm, t_pen tm = pen0 -> let t := term_run u tm out in
  (forall x, x < length (drawn title) -> t_cell t (left + x) top = cell_of (nth x (inks (drawn title)) (None, pen0)))
  /\ (forall x, x < length (drawn sep) -> t_cell t (left + x) (top + 1) = cell_of (nth x (inks (drawn sep)) (None, pen0)))
  /\ (forall j i r x, nth_error (seen_rows v) j = Some i -> nth_error (rows v) i = Some r -> x < line_len ws ->
      t_cell t (left + x) (top + 2 + j) = cell_of (nth x (inks (row_styles v (match selection v with Some s => s =? i | None => false end) (data r))) (None, pen0)))
  /\ (forall j x, length (seen_rows v) <= j < lines -> x < N.to_nat (a_width a) -> t_cell t (left + x) (top + 2 + j) = Nothing Reset)
  /\ (forall from to j, sb = Some (from, to) -> j < lines ->
     let c := if ((from <=? N.of_nat j) && (N.of_nat j <=? to))%N then thumb (scrollbar (lv_skin v)) else track (scrollbar (lv_skin v)) in
     t_cell t (left + N.to_nat (a_width a)) (top + 2 + j) = Part (snd (sc_cache c)) 0 (worn (Some (fst (sc_cache c))))).
Proof.
  intros Ht Hh Hc (Hn & Hsc & Hl) a ws left top lines H1 H2 H3 Hs Hsb Hw.
  destruct (C70_drawn Ht Hh H1 H2 H3 Hs Hsb) as (title & sep & Et & Es & E). fold a in E. exists title, sep. eexists. split; [exact Et|]. split; [exact Es|]. split; [exact E|]. clear E. intros tm Hp t.
  set (f := fun j : nat => _) in t.
  assert (Lt : thin u (map fst (drawn title))) by (eapply title_thin; eauto; intros c Ic; apply Hl, Ic). assert (Ls : thin u (map fst (drawn sep))) by (eapply separator_thin; eauto).
  pose proof (title_inline _ Et) as It. pose proof (separator_inline _ Es) as Is. pose proof (title_faithful _ Et) as Ft. pose proof (separator_faithful _ Es) as Fs.
  assert (Hseen : forall j i, nth_error (seen_rows v) j = Some i -> j < lines).
  { clear t f. intros j i Ej. assert (Lj : j < length (seen_rows v)) by (apply nth_error_Some; congruence). unfold seen_rows in *. rewrite firstn_length in Lj. fold a lines in Lj |- *. lia. }
  set (mid := fun j : nat => match nth_error (seen_rows v) j with
               | Some i => match nth_error (rows v) i with
                           | Some r => row_cmds v (match selection v with Some s => s =? i | None => false end) (data r)
                           | None => []
                           end
               | None => [ClearUntilNewLine]
               end).
  set (bar := fun j : nat => match sb with
               | Some (t, b) => MoveTo (a_left a + a_width a)%N (a_top a + 2 + N.of_nat j)%N
                                :: sc_queue (if ((t <=? N.of_nat j) && (N.of_nat j <=? b))%N then thumb (scrollbar (lv_skin v)) else track (scrollbar (lv_skin v)))
               | None => []
               end).
  assert (Ef : forall j, f j = (MoveTo (a_left a) (a_top a + 2 + N.of_nat j)%N :: mid j) ++ bar j) by reflexivity.
  assert (Pm : forall j, pen_after pen0 (mid j) = pen0).
  { intros j. unfold mid. destruct (nth_error (seen_rows v) j) as [i|]; [|reflexivity]. destruct (nth_error (rows v) i) as [r|]; [apply row_pen|reflexivity]. }
  assert (Pb : forall j, pen_after pen0 (bar j) = pen0).
  { intros j. unfold bar. destruct sb as [(q & b)|]; [|reflexivity]. exact (sc_pen _). }
  assert (Pf : forall j, pen_after pen0 (f j) = pen0) by (intros j; rewrite Ef, P_Pen.pen_after_app; cbn [pen_after]; rewrite Pm; apply Pb).
  assert (Rt : forall r sel, In r (rows v) -> thin u (map fst (drawn (row_cmds v sel (data r))))) by (intros r sel Ir; apply row_thin; auto; intros c Ic; apply Hl; auto).
  assert (Om : forall j, on_line u (top + 2 + j) (MoveTo (a_left a) (a_top a + 2 + N.of_nat j)%N :: mid j)).
  { intros j. replace (top + 2 + j) with (N.to_nat (a_top a + 2 + N.of_nat j)) by (unfold top; lia). unfold mid. destruct (nth_error (seen_rows v) j) as [i|]; [|apply on_line_clear].
    destruct (nth_error (rows v) i) as [r|] eqn:Er; [|apply on_line_inline; constructor]. apply on_line_inline; [apply row_inline|]. apply Rt. eapply nth_error_In, Er. }
  assert (Sth : forall b : bool, thin u (map fst (drawn (sc_queue (if b then thumb (scrollbar (lv_skin v)) else track (scrollbar (lv_skin v))))))).
  { inversion Hsc as [|? ? Q1 Q2]; subst. inversion Q2; subst. intros []; repeat constructor; assumption. }
  assert (Ob : forall j, on_line u (top + 2 + j) (bar j)).
  { intros j. replace (top + 2 + j) with (N.to_nat (a_top a + 2 + N.of_nat j)) by (unfold top; lia). unfold bar. destruct sb as [(q & b)|]; [|intros t0 x' y' _; reflexivity].
    apply on_line_inline; [apply sc_inline|apply Sth]. }
  assert (Of : forall j, on_line u (top + 2 + j) (f j)) by (intros j; rewrite Ef; apply on_line_app; auto).
  set (t1 := term_run u tm (MoveTo (a_left a) (a_top a) :: title)). set (t2 := term_run u t1 (MoveTo (a_left a) (a_top a + 1)%N :: sep)).
  assert (P1 : t_pen t1 = pen0) by (unfold t1; rewrite P_Paint.run_pen, Hp; exact (proj2 Ft)).
  assert (P2 : t_pen t2 = pen0) by (unfold t2; rewrite P_Paint.run_pen, P1; exact (proj2 Fs)).
  assert (E3 : t = term_run u t2 (flat_map f (seq 0 lines))).
  { unfold t, t2, t1. rewrite <- !P_Paint.term_run_app. reflexivity. }
  assert (Lt1 : t1 = term_run u (mkTerm (t_cell tm) left top pen0) title) by (rewrite <- Hp; reflexivity).
  assert (Lt2 : t2 = term_run u (mkTerm (t_cell t1) left (top + 1) pen0) sep).
  { unfold t2. change (term_run u t1 (MoveTo (a_left a) (a_top a + 1)%N :: sep)) with (term_run u (mkTerm (t_cell t1) (N.to_nat (a_left a)) (N.to_nat (a_top a + 1)) (t_pen t1)) sep). rewrite P1. do 2 f_equal. unfold top. lia. }
  assert (Rm : forall j, j < lines -> exists t', t_pen t' = pen0 /\ (forall x, x < left + N.to_nat (a_width a) -> t_cell t x (top + 2 + j) = t_cell (term_run u (mkTerm (t_cell t') left (top + 2 + j) pen0) (mid j)) x (top + 2 + j))
     /\ forall x, t_cell t x (top + 2 + j) = t_cell (term_run u (term_run u t' (MoveTo (a_left a) (a_top a + 2 + N.of_nat j)%N :: mid j)) (bar j)) x (top + 2 + j)).
  { intros j Lj. destruct (@lines_pen u (top + 2) f Of Pf lines 0 t2 j P2 ltac:(lia)) as (t' & Pt & Q). exists t'. split; [exact Pt|]. split.
    - intros x Lx. rewrite E3, Q. rewrite Ef, P_Paint.term_run_app. change (term_run u t' (MoveTo (a_left a) (a_top a + 2 + N.of_nat j)%N :: mid j)) with (term_run u (mkTerm (t_cell t') left (N.to_nat (a_top a + 2 + N.of_nat j)) (t_pen t')) (mid j)).
      rewrite Pt. replace (N.to_nat (a_top a + 2 + N.of_nat j)) with (top + 2 + j) by (unfold top; lia). unfold bar. destruct sb as [(q & b)|]; [|reflexivity].
      match goal with |- t_cell (term_run u ?t0 (MoveTo ?x0 ?y0 :: ?o)) _ _ = _ => change (term_run u t0 (MoveTo x0 y0 :: o)) with (term_run u (mkTerm (t_cell t0) (N.to_nat x0) (N.to_nat y0) (t_pen t0)) o) end.
      match goal with |- t_cell (term_run u ?t0 ?o) _ _ = _ => destruct (@inline_run u o t0 (sc_inline _) (Sth _)) as (A & _) end. rewrite A. cbn [t_x t_y t_cell].
      rewrite (proj2 (in_line_no _ _ _ _ _)); [reflexivity|]. unfold left in Lx. lia.
    - intros x. rewrite E3, Q, Ef, P_Paint.term_run_app. reflexivity. }
  split; [|split; [|split; [|split]]].
  - intros x Lx. rewrite E3, (@lines_kept u (top + 2) f Of) by lia. unfold t2. rewrite (@on_line_inline u (a_left a) (a_top a + 1)%N sep Is Ls) by (unfold top; lia).
    rewrite Lt1, inline_cell by assumption. rewrite (faithful_inks It Ft). reflexivity.
  - intros x Lx. rewrite E3, (@lines_kept u (top + 2) f Of) by lia. rewrite Lt2, inline_cell by assumption. rewrite (faithful_inks Is Fs). reflexivity.
  - intros j i r x Ej Er Lx. destruct (Rm j (Hseen j i Ej)) as (t' & _ & Q & _). rewrite Q by lia. set (sel := match selection v with Some s => s =? i | None => false end).
    assert (Em : mid j = row_cmds v sel (data r)) by (unfold mid; rewrite Ej, Er; reflexivity). rewrite Em. rewrite inline_cell; [rewrite row_inks; reflexivity|apply row_inline|apply Rt; eapply nth_error_In, Er|].
    destruct (C47_row sel (data r) Hc) as (Lo & _). rewrite Lo. exact Lx.
  - intros j x (L1 & L2) Lx. destruct (Rm j L2) as (t' & _ & Q & _). rewrite Q by lia. assert (Em : mid j = [ClearUntilNewLine]) by (unfold mid; rewrite (proj2 (nth_error_None _ _) L1); reflexivity). rewrite Em.
    cbn. rewrite Nat.eqb_refl, (proj2 (Nat.leb_le _ _)) by lia. reflexivity.
  - intros from to j -> Lj c. destruct (Rm j Lj) as (t' & Pt & _ & Q). rewrite Q. unfold bar. fold c.
    set (t3 := term_run u t' _). assert (P3 : t_pen t3 = pen0) by (unfold t3; rewrite P_Paint.run_pen, Pt; exact (Pm j)).
    change (term_run u t3 (MoveTo (a_left a + a_width a)%N (a_top a + 2 + N.of_nat j)%N :: sc_queue c)) with (term_run u (mkTerm (t_cell t3) (N.to_nat (a_left a + a_width a)) (N.to_nat (a_top a + 2 + N.of_nat j)) (t_pen t3)) (sc_queue c)).
    rewrite P3. replace (left + N.to_nat (a_width a)) with (N.to_nat (a_left a + a_width a) + 0) by (unfold left; lia). replace (top + 2 + j) with (N.to_nat (a_top a + 2 + N.of_nat j)) by (unfold top; lia).
    rewrite inline_cell; [reflexivity|apply sc_inline|exact (Sth _)|cbn; lia].
Qed.
Lemma nth_sub {A} (l : list A) from w i : i < w -> nth_error (sub l from w) i = nth_error l (from + i).
Proof.
  unfold sub. revert l w i. induction from as [|n IH]; intros l w i L.
  - cbn [skipn Nat.add]. revert w i L. induction l as [|a l IH]; intros [|w] [|i] L; cbn; try lia; try reflexivity. apply IH. lia.
  - destruct l as [|a l]; [|exact (IH l w i L)]. cbn [skipn]. rewrite firstn_nil. destruct i; reflexivity.
Qed.
Lemma wears_sub (t : term) left y l from w cs : (forall x, x < length l -> t_cell t (left + x) y = cell_of (nth x (inks l) (None, pen0))) ->
  Forall (fun q => snd q = cs) (sub l from w) -> from + w <= length l -> wears t (left + from) y w (look_of [cs]).
Proof.
  intros H F L i Li. rewrite <- Nat.add_assoc, H by lia. rewrite <- P_Look.look_worn. destruct (nth_error l (from + i)) as [q|] eqn:E; [|apply nth_error_None in E; lia].
  assert (E' : nth_error (inks l) (from + i) = Some (Some (fst q), worn (Some (snd q)))) by (unfold inks; rewrite nth_error_map, E; reflexivity). rewrite (nth_error_nth _ _ _ E'). cbn [cell_of ink].
  assert (Q : nth_error (sub l from w) i = Some q). { rewrite nth_sub by exact Li. exact E. }
  rewrite Forall_forall in F. rewrite (F q (nth_error_In _ _ Q)). reflexivity.
Qed.

Lemma wears_one (t : term) left y l k c cs : (forall x, x < length l -> t_cell t (left + x) y = cell_of (nth x (inks l) (None, pen0))) ->
  nth_error l k = Some (c, cs) -> wears t (left + k) y 1 (look_of [cs]).
Proof.
  intros H E. apply (@wears_sub _ _ _ l k 1 cs H); [rewrite (sub_one _ _ E); repeat constructor|]. assert (k < length l) by (apply nth_error_Some; congruence). lia.
Qed.
Lemma rule_style {T} (v : ListView T) out : well_titled v -> separator_line v = Ret out -> Forall (fun q => snd q = ls_cs (table (lv_skin v))) (drawn out).
Proof.
  intros Ht Es. destruct (separator_line_eq Ht) as (s' & E' & D). rewrite E' in Es. injection Es as <-. rewrite D. apply Forall_forall. intros x Hx. apply pieces_in in Hx as (sp & H1 & H2). apply in_map_iff in H1 as (j & <- & _). destruct H2 as [->|H2].
  - cbn [fst]. destruct (_ && _); reflexivity.
  - cbn [snd] in H2. apply repeat_spec in H2 as ->. reflexivity.
Qed.
Lemma same_look l cs : look_of l = worn (Some cs) -> look_of [cs] = look_of l.
Proof. intros ->. symmetry. apply P_Look.look_worn. Qed.
Lemma cell_look cs b : look_of [cs_set_bg cs b] = look_of [cs; ground b].
Proof.
  apply same_look. rewrite P_Look.look_over. unfold worn, worn_over, overwrite_with, ground, cs_set_bg, cs_has_attr, attrs_extend. cbn [fold_left fg bg attrs opt_or]. rewrite N.lor_0_r. destruct (fg cs); reflexivity.
Qed.
Lemma separator_look b cs : look_of [overwrite_with (ground b) cs] = look_of [ground b; cs].
Proof. apply same_look. rewrite P_Look.look_over. reflexivity. Qed.

(** ** C107 *)

(** The titles have the look of the first headers and the separators, the rule too, the one of the table; each cell of a row has the look of its style,
    with the background of the selection if the row is selected; the separators of the selected row have this background under their own style;
    a line without row has no look; and the scrollbar has its own *)
Theorem C107_list : forall u T (v : ListView T) sb, well_titled v -> drawable u v -> lv_scroll v <= length (rows v) -> lv_scrollbar v = Ret sb ->
  let a := lv_area v in let ws := widths_of (columns v) in let tts := map (@lc_title T) (columns v) in
  let left := N.to_nat (a_left a) in let top := N.to_nat (a_top a) in let lines := N.to_nat (a_height a) - 2 in let border := ls_cs (table (lv_skin v)) in
  exists out, lv_write_on v = Ret out /\ forall tm, t_pen tm = pen0 -> let t := term_run u tm out in
  (forall i j h, title_run tts i j -> nth_error (headers (lv_skin v)) 0 = Some h ->
     wears t (left + col_start ws i) top (col_start ws j - 1 - col_start ws i) (look_of [ls_cs h])
     /\ (0 < i -> wears t (left + col_start ws i - 1) top 1 (look_of [border])))
  /\ wears t left (top + 1) (line_len ws) (look_of [border])
  /\ (forall j i r, nth_error (seen_rows v) j = Some i -> nth_error (rows v) i = Some r -> forall p c, nth_error (columns v) p = Some c ->
     wears t (left + col_start ws p) (top + 2 + j) (N.to_nat (lc_width c)) (look_of (cell_style (extract c (data r)) :: marking v i))
     /\ (0 < p -> wears t (left + col_start ws p - 1) (top + 2 + j) 1 (look_of (marking v i ++ [border]))))
  /\ (forall j, length (seen_rows v) <= j < lines -> wears t left (top + 2 + j) (N.to_nat (a_width a)) pen0)
  /\ (forall from to j, sb = Some (from, to) -> j < lines ->
     wears t (left + N.to_nat (a_width a)) (top + 2 + j) 1
       (look_of [fst (sc_cache (if ((from <=? N.of_nat j) && (N.of_nat j <=? to))%N then thumb (scrollbar (lv_skin v)) else track (scrollbar (lv_skin v))))])).
Proof.
  intros u T v sb Ht (Hh & Hc & Hn & H1 & H2 & H3 & Hw) Hs Hsb a ws tts left top lines border.
  destruct (list_cells Ht Hh Hc Hn H1 H2 H3 Hs Hsb Hw) as (title & sep & out & Et & Es & Eo & R). exists out. split; [exact Eo|]. intros tm Hp t. destruct (R tm Hp) as (R1 & R2 & R3 & R4 & R5). clear R.
  fold a ws left top lines t in R1, R2, R3, R4, R5.
  split; [|split; [|split; [|split]]].
  - intros i j h Hr Eh. destruct (C47_title Ht Hh) as (out' & Eo' & Lo & Ho). rewrite Eo' in Et. injection Et as ->. fold ws in Lo, Ho. fold tts in Ho.
    destruct (nth_error tts i) as [tt|] eqn:Ett; [|apply nth_error_None in Ett; destruct Hr; lia]. destruct (Ho i j tt Hr Ett) as ((s & P1 & _) & P2). rewrite (nth_error_nth _ _ _ Eh) in P1.
    destruct Hr as (Hij & _). assert (Hlen : length tts = length ws) by (unfold tts, ws, widths_of; rewrite !map_length; reflexivity). destruct (@edge_in ws j ltac:(lia)) as (_ & E1).
    assert (Ei : 0 < i -> 0 < col_start ws i) by (intros Hi; apply edge_in; lia). assert (Eij : col_start ws i < col_start ws j) by (apply col_start_lt; lia). split.
    + apply (@wears_sub _ _ _ (drawn title) _ _ _ R1); [rewrite P1; apply Forall_map, Forall_forall; reflexivity|lia].
    + intros Hi. specialize (Ei Hi). replace (left + col_start ws i - 1) with (left + (col_start ws i - 1)) by lia. eapply (@wears_one _ _ _ (drawn title) _ _ _ R1). exact (P2 Hi).
  - destruct (C47_separator Ht) as (out' & Eo' & Lo & _). rewrite Eo' in Es. injection Es as ->. fold ws in Lo. replace left with (left + 0) by lia.
    apply (@wears_sub _ _ _ (drawn sep) _ _ _ R2); [|lia]. unfold sub. cbn [skipn]. rewrite firstn_all2 by lia. exact (rule_style Ht Eo').
  - intros j i r Ej Er p c Ec. set (sel := match selection v with Some s => s =? i | None => false end) in R3. specialize (R3 j i r). cbv zeta in R3. 
    assert (Lp : p < length ws) by (unfold ws, widths_of; rewrite map_length; apply nth_error_Some; congruence). assert (Ew : nth p ws 0 = N.to_nat (lc_width c)) by (unfold ws, widths_of; apply nth_error_nth; rewrite nth_error_map, Ec; reflexivity).
    pose proof (cell_at ws Lp) as Lc. destruct (row_at sel (data r) Hc) as (Lr & Hr). fold ws in Lr, Hr. destruct (Hr p c Ec) as (P1 & P2). cbv zeta in P1.
    assert (R3' : forall x, x < length (row_styles v sel (data r)) -> t_cell t (left + x) (top + 2 + j) = cell_of (nth x (inks (row_styles v sel (data r))) (None, pen0))) by (intros x Lx; apply (R3 x Ej Er); rewrite <- Lr; exact Lx).
    assert (Em : marking v i = if sel then [ground (selection_background v)] else []) by (unfold marking, sel; destruct (selection v) as [s|]; reflexivity). rewrite Em. split.
    + replace (look_of (cell_style (extract c (data r)) :: (if sel then [ground (selection_background v)] else [])))
        with (look_of [if sel then cs_set_bg (cell_style (extract c (data r))) (selection_background v) else cell_style (extract c (data r))]) by (destruct sel; [apply cell_look|reflexivity]).
      apply (@wears_sub _ _ _ (row_styles v sel (data r)) _ _ _ R3'); [exact P1|rewrite Lr; lia].
    + intros Hp0. destruct (@edge_in ws p ltac:(lia)) as (E1 & E2). replace (left + col_start ws p - 1) with (left + (col_start ws p - 1)) by lia.
      replace (look_of ((if sel then [ground (selection_background v)] else []) ++ [border])) with (look_of [if sel then overwrite_with (ground (selection_background v)) border else border]) by (destruct sel; [apply separator_look|reflexivity]).
      eapply (@wears_one _ _ _ (row_styles v sel (data r)) _ _ _ R3'). exact (P2 Hp0).
  - intros j L i Li. rewrite R4 by assumption. reflexivity.
  - intros from to j E L i Li. assert (i = 0) by lia. subst i. rewrite Nat.add_0_r, (R5 from to j E L). cbn [ink]. apply P_Look.look_worn.
Qed.
Print Assumptions C107_list.

Lemma in_line_of ws : forall x, x < line_len ws -> exists p, p < length ws /\ (col_start ws p <= x < col_start ws p + nth p ws 0 \/ 0 < p /\ x = col_start ws p - 1).
Proof.
  unfold line_len, col_start. induction ws as [|w ws IH]; intros x L; [cbn in L; lia|]. change (sum (w :: ws)) with (w + sum ws) in L. cbn [length] in L.
  destruct (Nat.lt_ge_cases x w) as [Lx|Lx]; [exists 0; cbn; lia|]. destruct (Nat.eq_dec x w) as [->|Nx].
  - exists 1. cbn [length firstn map nth]. split; [destruct ws; cbn in L |- *; lia|]. right. cbn. lia.
  - destruct (IH (x - S w)) as (p & Lp & C); [lia|]. exists (S p). cbn [length firstn map nth]. change (sum (S w :: map S (firstn p ws))) with (S w + sum (map S (firstn p ws))). split; [lia|].
    destruct C as [C|(C1 & C2)]; [left; lia|right; split; [lia|]].
    assert (0 < sum (map S (firstn p ws))). { destruct ws as [|w' ws], p as [|p]; cbn [length] in *; try lia. cbn. lia. } lia.
Qed.
(** The selected row is the one with the background of the selection, in all its columns and between them *)
Theorem C107_marked : forall u T (v : ListView T) sb, well_titled v -> drawable u v -> lv_scroll v <= length (rows v) -> lv_scrollbar v = Ret sb ->
  exists out, lv_write_on v = Ret out /\ forall tm, t_pen tm = pen0 -> forall j i r, nth_error (seen_rows v) j = Some i -> nth_error (rows v) i = Some r -> plain_row v (data r) ->
  forall x, x < line_len (widths_of (columns v)) ->
  let cell := t_cell (term_run u tm out) (N.to_nat (a_left (lv_area v)) + x) (N.to_nat (a_top (lv_area v)) + 2 + j) in
  p_bg (ink cell) = selection_background v <-> selection v = Some i.
Proof.
  intros u T v sb Ht Hd Hs Hsb. destruct (C107_list Ht Hd Hs Hsb) as (out & Eo & R). exists out. split; [exact Eo|]. intros tm Hp j i r Ej Er ((B1 & B2) & Bc & Bs) x Lx cell.
  destruct (R tm Hp) as (_ & _ & R3 & _). clear R. set (ws := widths_of (columns v)) in *. set (t := term_run u tm out) in *. set (left := N.to_nat (a_left (lv_area v))) in *. set (y := N.to_nat (a_top (lv_area v)) + 2 + j) in *. specialize (R3 j i r Ej Er).
  assert (G : exists l, ink cell = look_of l /\ (p_bg (look_of l) = selection_background v <-> selection v = Some i)).
  { destruct (in_line_of _ Lx) as (p & Lp & C). assert (Lp' : p < length (columns v)) by (unfold ws, widths_of in Lp; rewrite map_length in Lp; exact Lp). destruct (nth_error (columns v) p) as [c|] eqn:Ec; [|apply nth_error_None in Ec; lia].
    assert (Ew : nth p ws 0 = N.to_nat (lc_width c)) by (unfold ws, widths_of; apply nth_error_nth; rewrite nth_error_map, Ec; reflexivity). destruct (R3 p c Ec) as (Q1 & Q2). fold y in Q1, Q2. destruct C as [C|(C1 & C2)].
    - eexists. split.
      + replace cell with (t_cell t (left + col_start ws p + (x - col_start ws p)) y) by (unfold cell; f_equal; lia). apply Q1. lia.
      + destruct (Bc c (nth_error_In _ _ Ec)) as (D1 & D2). set (cs := cell_style (extract c (data r))) in *. unfold look_of, marking, last_color. destruct (selection v) as [s|] eqn:Es; [destruct (Nat.eqb_spec s i) as [->|N]|]; cbn [map fold_left ground attrs fg bg].
        * rewrite N.lor_0_l, N.lor_0_r. unfold cs_has_attr in D2. rewrite D2. cbn [p_bg]. tauto.
        * rewrite N.lor_0_l. unfold cs_has_attr in D2. rewrite D2. cbn [p_bg]. split; [intros E; exfalso|congruence]. destruct (bg cs); congruence.
        * rewrite N.lor_0_l. unfold cs_has_attr in D2. rewrite D2. cbn [p_bg]. split; [intros E; exfalso|congruence]. destruct (bg cs); congruence.
    - eexists. split.
      + replace cell with (t_cell t (left + col_start ws p - 1 + 0) y) by (unfold cell; f_equal; pose proof (@edge_in ws p ltac:(lia)); lia). apply (Q2 C1). lia.
      + unfold look_of, marking, last_color. destruct (selection v) as [s|] eqn:Es; [destruct (Nat.eqb_spec s i) as [->|N]|]; cbn [app map fold_left ground attrs fg bg]; rewrite !N.lor_0_l; unfold cs_has_attr in B2; rewrite B2, B1; cbn [p_bg]; split; congruence. }
  destruct G as (l & -> & G). exact G.
Qed.
Print Assumptions C107_marked.
Lemma seen_once {T} (v : ListView T) j j' i : nth_error (seen_rows v) j = Some i -> nth_error (seen_rows v) j' = Some i -> j = j'.
Proof.
  intros E E'. assert (N : NoDup (seen_rows v)).
  { unfold seen_rows. set (l := List.filter _ _). assert (N : NoDup l) by (apply NoDup_filter, seq_NoDup). rewrite <- (firstn_skipn (N.to_nat (a_height (lv_area v)) - 2) l) in N.
    revert N. generalize (firstn (N.to_nat (a_height (lv_area v)) - 2) l) (skipn (N.to_nat (a_height (lv_area v)) - 2) l). intros l1 l2 N. induction l1 as [|x l1 IH]; [constructor|]. cbn [app] in N. inversion N as [|? ? N1 N2]; subst. constructor; [|auto]. intros I. apply N1, in_or_app. left. exact I. }
  rewrite NoDup_nth_error in N. apply N; [apply nth_error_Some; congruence|congruence].
Qed.
Lemma seen_row {T} (v : ListView T) j i : nth_error (seen_rows v) j = Some i -> exists r, nth_error (rows v) i = Some r.
Proof.
  intros Ej. apply nth_error_In in Ej. unfold seen_rows in Ej. assert (I : In i (List.filter (displayed_b v) (seq (lv_scroll v) (length (rows v) - lv_scroll v)))) by (rewrite <- (firstn_skipn (N.to_nat (a_height (lv_area v)) - 2) (List.filter _ _)); apply in_app_iff; left; exact Ej).
  apply filter_In in I as (_ & I). unfold displayed_b in I. destruct (nth_error (rows v) i) as [r|]; [eauto|discriminate].
Qed.
(** There's exactly one marked line when the selected row is among the ones which are seen, and it's the line of this row; there's none else *)
Theorem C107_one : forall u T (v : ListView T) sb, well_titled v -> drawable u v -> lv_scroll v <= length (rows v) -> lv_scrollbar v = Ret sb -> 0 < line_len (widths_of (columns v)) ->
  (forall r, In r (rows v) -> plain_row v (data r)) ->
  exists out, lv_write_on v = Ret out /\ forall tm, t_pen tm = pen0 ->
  let marked j := forall x, x < line_len (widths_of (columns v)) ->
    p_bg (ink (t_cell (term_run u tm out) (N.to_nat (a_left (lv_area v)) + x) (N.to_nat (a_top (lv_area v)) + 2 + j))) = selection_background v in
  forall j, j < length (seen_rows v) -> marked j <-> exists s, selection v = Some s /\ nth_error (seen_rows v) j = Some s /\ forall j', nth_error (seen_rows v) j' = Some s -> j' = j.
Proof.
  intros u T v sb Ht Hd Hs Hsb Hl Hpl. destruct (C107_marked Ht Hd Hs Hsb) as (out & Eo & R). exists out. split; [exact Eo|]. intros tm Hp marked j Lj.
  destruct (nth_error (seen_rows v) j) as [i|] eqn:Ej; [|apply nth_error_None in Ej; lia]. destruct (seen_row _ _ Ej) as (r & Er). pose proof (R tm Hp j i r Ej Er (Hpl r (nth_error_In _ _ Er))) as Q. split.
  - intros M. exists i. split; [apply (Q 0 Hl), (M 0 Hl)|]. split; [reflexivity|]. intros j' Ej'. exact (seen_once _ _ _ Ej' Ej).
  - intros (s & Es & Ei & _) x Lx. injection Ei as ->. apply (Q x Lx). exact Es.
Qed.
Print Assumptions C107_one.

(** After any history, selecting the next or the previous row in an area of at least 5 lines: the marked line is the one of the closest displayed row in this
    direction (going on at the other end), which is seen, and no place of another row has the background of the selection. When all rows can be seen at
    once, it's for a list at its top. *)
Theorem C107_next : forall u T area cols k (v0 v v' : ListView T) ops up sel sb, lv_new area cols k = Ret v0 -> lv_run v0 ops = Ret v ->
  (0 < a_height area)%N -> (forall a, In (LvArea a) ops -> (0 < a_height a)%N) -> (5 <= a_height (lv_area v))%N ->
  selection v = Some sel -> displayed_rows_count v <> 0 -> (displayed_rows_count v <= tbody_height v -> lv_scroll v = 0) ->
  try_select_next v up = Ret v' -> drawable u v' -> lv_scrollbar v' = Ret sb -> (forall r, In r (rows v') -> plain_row v' (data r)) ->
  let n := length (rows v) in let at_ d := (if up : bool then sel + (n - d) else sel + d) mod n in
  exists d j out, 1 <= d <= n /\ is_displayed v (at_ d) /\ (forall d', 1 <= d' < d -> is_hidden v (at_ d')) /\ nth_error (seen_rows v') j = Some (at_ d) /\ rows v' = rows v /\ lv_write_on v' = Ret out
  /\ forall tm, t_pen tm = pen0 -> forall j' x, j' < length (seen_rows v') -> x < line_len (widths_of (columns v')) ->
     let cell := t_cell (term_run u tm out) (N.to_nat (a_left (lv_area v')) + x) (N.to_nat (a_top (lv_area v')) + 2 + j') in
     p_bg (ink cell) = selection_background v' <-> j' = j.
Proof.
  intros u T area cols k v0 v v' ops up sel sb E0 E Ha Hla H5 Hsel Hn Hfit Ev Hd Hsb Hpl n at_.
  assert (Ev2 : lv_run v0 (ops ++ [LvNext up]) = Ret v').
  { clear - E Ev. revert v0 E. induction ops as [|o ops IH]; intros v0 E; cbn [app lv_run] in *.
    - injection E as ->. cbn [lv_apply]. rewrite Ev. reflexivity.
    - apply bind_Ret_inv in E as (v1 & E1 & E). rewrite E1, bind_ret. apply IH, E. }
  pose proof (@C44_reachable _ _ _ _ _ _ _ E0 E) as Hok. destruct (@C47_reachable _ _ _ _ _ _ _ E0 Ev2) as (Ht & _).
  assert (Hs : lv_scroll v' <= length (rows v')).
  { apply (@C45_in_rows _ _ _ _ _ _ _ E0 Ha) with (2 := Ev2). intros a I. apply in_app_or in I as [I|[I|[]]]; [auto|discriminate I]. }
  destruct (@C44_next T v up sel Hok Hn Hsel) as (d & Ld & D1 & D2 & En). fold n in Ld, D1, D2, En. fold (at_ d) in D1, En. rewrite Ev in En. symmetry in En.
  assert (Sv : exists s, v' = with_scroll (with_selection v (Some (at_ d))) s) by (apply C44_only_scroll; exact En).
  assert (I : In (at_ d) (seen_rows v')).
  { apply (@C45_visible_partial T (with_selection v (Some (at_ d))) v' (at_ d)); [|exact H5|reflexivity|exact D1| |exact En].
    - destruct Hok as (O1 & O2). split; [exact O1|]. cbn [selection with_selection]. intros s Q. injection Q as <-. cbn [rows with_selection]. destruct D1 as (r & Er & _). apply nth_error_Some. congruence.
    - intros L. specialize (Hfit L). cbn [lv_scroll with_selection]. lia. }
  apply In_nth_error in I as (j & Ej). destruct (C107_marked Ht Hd Hs Hsb) as (out & Eo & R). exists d, j, out. split; [exact Ld|]. split; [exact D1|]. split; [exact D2|]. split; [exact Ej|].
  assert (Es : selection v' = Some (at_ d)) by (destruct Sv as (s & ->); reflexivity). split; [destruct Sv as (s & ->); reflexivity|]. split; [exact Eo|]. clear Sv.
  intros tm Hp j' x Lj Lx cell. destruct (nth_error (seen_rows v') j') as [i|] eqn:Ej'; [|apply nth_error_None in Ej'; lia]. destruct (seen_row _ _ Ej') as (r & Er).
  pose proof (R tm Hp j' i r Ej' Er (Hpl r (nth_error_In _ _ Er)) x Lx) as Q. cbv zeta in Q. fold cell in Q. rewrite Q, Es. split.
  - intros K. injection K as K. rewrite <- K in Ej'. exact (seen_once _ _ _ Ej' Ej).
  - intros ->. congruence.
Qed.
Print Assumptions C107_next.

(** ** Examples *)
Definition chosen_lv : ListView N := match lv_run sorted_new (sorted_ops ++ [LvFirst; LvNext false]) with Ret v => v | _ => demo_lv 0 end.
(** The backgrounds of the cells of a line *)
Definition grounds_of {T} (v : ListView T) (y w : nat) : list Color := match lv_write_on v with Ret out => map (fun x => p_bg (ink (t_cell (term_run demo P_Paint.full_term out) x y))) (seq 0 w) | _ => [] end.
(** The second of three rows is selected: its line, the fourth one of the terminal, has the background of the selection in the columns of the list *)
Example C107_example : read_lines chosen_lv 13 4 = read_lines sorted_lv 13 4
  /\ grounds_of chosen_lv 3 13 = Reset :: repeat (selection_background chosen_lv) 11 ++ [Reset] /\ selection_background chosen_lv <> Reset
  /\ map (fun y => grounds_of chosen_lv y 13) [0; 1; 2; 4; 5; 6] = repeat (repeat Reset 13) 6 /\ seen_rows chosen_lv = [0; 1; 3] /\ selection chosen_lv = Some 1.
Proof. split; [vm_compute; reflexivity|]. split; [vm_compute; reflexivity|]. split; [vm_compute; discriminate|]. split; [vm_compute; reflexivity|]. split; vm_compute; reflexivity. Qed.
(** The hypotheses of the theorems for it *)
Example C107_hypotheses : well_titled chosen_lv /\ drawable demo chosen_lv /\ lv_scroll chosen_lv <= length (rows chosen_lv) /\ lv_scrollbar chosen_lv = Ret None /\ 0 < line_len (widths_of (columns chosen_lv))
  /\ (forall r, In r (rows chosen_lv) -> plain_row chosen_lv (data r)) /\ t_pen P_Paint.full_term = pen0.
Proof.
  split; [|split; [|split; [apply Nat.leb_le; vm_compute; reflexivity|split; [vm_compute; reflexivity|split; [apply Nat.ltb_lt; vm_compute; reflexivity|split; [|reflexivity]]]]]].
  - eapply (@well_titled_run N (mkArea 1 0 12 7) demo_cols skin_default sorted_new chosen_lv (sorted_ops ++ [LvFirst; LvNext false])); [apply sorted_made|].
    unfold chosen_lv. assert (H : match lv_run sorted_new (sorted_ops ++ [LvFirst; LvNext false]) with Ret _ => true | _ => false end = true) by (vm_compute; reflexivity). destruct (lv_run sorted_new (sorted_ops ++ [LvFirst; LvNext false])); [reflexivity|discriminate H..].
  - split; [vm_compute; discriminate|]. split; [intros c d Hc; vm_compute in Hc; destruct Hc as [<-|[<-|[<-|[]]]]; reflexivity|]. split; [|split; [vm_compute; reflexivity|split; [vm_compute; reflexivity|split; [vm_compute; discriminate|apply Nat.leb_le; vm_compute; reflexivity]]]].
    split; [apply thin_b; vm_compute; reflexivity|]. split; [apply thin_b; vm_compute; reflexivity|].
    assert (B : forallb (fun c => forallb (fun x => chw demo x =? 1) (lc_title c) && forallb (fun r => forallb (fun x => chw demo x =? 1) (con (extract c (data r)))) (rows chosen_lv)) (columns chosen_lv) = true) by (vm_compute; reflexivity).
    rewrite forallb_forall in B. intros c Ic. apply B in Ic. apply andb_prop in Ic as (I1 & I2). split; [apply thin_b, I1|]. rewrite forallb_forall in I2. intros r Ir. apply thin_b, I2, Ir.
  - intros r _. split; [split; vm_compute; reflexivity|]. split; [|vm_compute; discriminate]. intros c Hc. vm_compute in Hc. destruct Hc as [<-|[<-|[<-|[]]]]; (split; [vm_compute; discriminate|vm_compute; reflexivity]).
Qed.
(** It was selected by going to the next row, from the first one *)
Example C107_next_example : exists v0 v, lv_new (mkArea 1 0 12 7) demo_cols skin_default = Ret v0 /\ lv_run v0 (sorted_ops ++ [LvFirst]) = Ret v
  /\ (5 <= a_height (lv_area v))%N /\ selection v = Some 0 /\ displayed_rows_count v = 3 /\ lv_scroll v = 0 /\ try_select_next v false = Ret chosen_lv.
Proof.
  exists sorted_new. assert (H : match lv_run sorted_new (sorted_ops ++ [LvFirst]) with Ret v => match try_select_next v false with Ret _ => match selection v with Some 0 => (displayed_rows_count v =? 3) && (lv_scroll v =? 0) && (5 <=? a_height (lv_area v))%N | _ => false end | _ => false end | _ => false end = true) by (vm_compute; reflexivity).
  assert (Hc : chosen_lv = match lv_run sorted_new (sorted_ops ++ [LvFirst]) with Ret v => match try_select_next v false with Ret v' => v' | _ => demo_lv 0 end | _ => demo_lv 0 end).
  { unfold chosen_lv. assert (G : forall ops (v0 : ListView N), lv_run v0 (ops ++ [LvFirst; LvNext false]) = (v <- lv_run v0 (ops ++ [LvFirst]) ;; try_select_next v false)).
    { induction ops as [|o ops IH]; intros v0; cbn [app lv_run].
      - cbn [lv_apply]. destruct (select_first_line v0); cbn [bind]; [|reflexivity..]. destruct (try_select_next a false); reflexivity.
      - destruct (lv_apply v0 o); cbn [bind]; [apply IH|reflexivity..]. }
    rewrite G. destruct (lv_run sorted_new (sorted_ops ++ [LvFirst])); reflexivity. }
  destruct (lv_run sorted_new (sorted_ops ++ [LvFirst])) as [v| |]; [|discriminate H..]. exists v. split; [apply sorted_made|]. split; [reflexivity|]. destruct (try_select_next v false) as [v'| |]; [|discriminate H..]. rewrite Hc.
  destruct (selection v) as [[|s]|]; [|discriminate H..]. rewrite !andb_true_iff, !Nat.eqb_eq, N.leb_le in H. destruct H as ((H1 & H2) & H3). repeat split; auto.
Qed.
