(** * A question and its answers are read on the terminal (C103) *)
From Verif Require Import Base L_Base M_Style M_Fit M_Wrap M_TblFit S_Wrap M_Text S_Text L_Text L_Text2 M_Fitter M_View S_View M_Render S_Render L_Render M_Area S_Fit S_Input L_Input2 S_Pen S_Area S_Origin S_Paint S_Border S_Read S_Cells S_Local S_Whole S_Paper M_Ask M_Prompt S_Prompt L_Clean L_View Demo.
From Verif Require Import P_Wrap P_Text P_Render P_Local P_Area P_Pen P_Origin P_Paint P_Read P_Border P_Cells P_Whole P_Paper.
From Verif Require P_Ask.
Set Implicit Arguments.
Open Scope nat_scope.

(** ** What is seen of what is written *)

Lemma shown_nil u t x y : shown_at u t x y [].
Proof. intros a c cs b i E. destruct a; discriminate E. Qed.
Lemma shown_app u t x y d d' : shown_at u t x y d -> shown_at u t (x + sumw (chw u) (map fst d)) y d' -> shown_at u t x y (d ++ d').
Proof.
  intros A B a c cs b i E L. apply app_eq_app in E as (l & [(-> & E)|(-> & E)]).
  - destruct l as [|e l].
    + cbn [app] in E. rewrite app_nil_r in *. pose proof (B [] c cs b i (eq_sym E) L) as H. cbn [map] in H. unfold sumw at 2 in H. cbn [map sum] in H. rewrite Nat.add_0_r in H. exact H.
    + cbn [app] in E. injection E as <- _. exact (A a c cs l i eq_refl L).
  - pose proof (B l c cs b i E L) as H. rewrite map_app, sumw_app, Nat.add_assoc. exact H.
Qed.
Lemma shown_frame u t t' x y d : (forall x', x' < x + sumw (chw u) (map fst d) -> t_cell t' x' y = t_cell t x' y) -> shown_at u t x y d -> shown_at u t' x y d.
Proof.
  intros F H a c cs b i E L. rewrite F; [exact (H a c cs b i E L)|]. rewrite E, map_app, sumw_app. cbn [map fst]. rewrite sumw_cons. lia.
Qed.
Lemma shown_str u cs : forall s t, shown_at u (type_str u t (worn (Some cs)) s) (t_x t) (t_y t) (map (fun c => (c, cs)) s).
Proof.
  induction s as [|c s IH]; intros t; [apply shown_nil|]. cbn [map type_str]. change ((c, cs) :: map (fun c0 => (c0, cs)) s) with ([(c, cs)] ++ map (fun c0 => (c0, cs)) s). apply shown_app.
  - intros a c' cs' b i E L. destruct a as [|e a]; [|destruct a; discriminate E]. cbn [app] in E. injection E as <- <- _. cbn [map]. unfold sumw at 1. cbn [map sum]. rewrite type_str_above by (cbn; lia). rewrite char_cell.
    rewrite Nat.eqb_refl. destruct (Nat.leb_spec (t_x t) (t_x t + 0 + i)); [|lia]. destruct (Nat.ltb_spec (t_x t + 0 + i) (t_x t + chw u c)); [|lia]. cbn [andb]. f_equal. lia.
  - pose proof (IH (type_char u t (worn (Some cs)) c)) as H. cbn [type_char cell_now t_x t_y] in H. cbn [map fst]. rewrite sumw_cons. unfold sumw at 1. cbn [map sum]. rewrite Nat.add_0_r. exact H.
Qed.
Lemma drawn_text o : Forall styled_cmd o -> map fst (drawn o) = out_text o.
Proof.
  induction o as [|c o IH]; intros H; [reflexivity|]. inversion H as [|? ? (cs & s & ->) H']; subst. unfold drawn, out_text. cbn [flat_map cmd_text]. rewrite map_app. fold (drawn o) (out_text o). rewrite IH by exact H'. f_equal. rewrite map_map. apply map_id.
Qed.
Lemma shown_run u : forall o t, Forall styled_cmd o -> t_pen t = pen0 -> shown_at u (term_run u t o) (t_x t) (t_y t) (drawn o).
Proof.
  induction o as [|c o IH]; intros t H P; [apply shown_nil|]. inversion H as [|? ? (cs & s & ->) H']; subst. unfold term_run, drawn. cbn [fold_left term_step flat_map]. rewrite P.
  set (t1 := with_pen (type_str u t (worn_over pen0 cs) s) (worn_out pen0 cs)). fold (term_run u t1 o) (drawn o).
  destruct (type_str_place u (worn_over pen0 cs) s t) as (X & Y).
  assert (Ls : map fst (map (fun ch => (ch, cs)) s) = s) by (rewrite map_map; apply map_id).
  apply shown_app.
  - eapply (@shown_frame u t1); [|apply (@shown_str u cs s t)]. intros x' L. rewrite run_above; [reflexivity|exact H'|]. right. right. unfold t1. cbn [with_pen t_x]. rewrite X. rewrite Ls in L. exact L.
  - rewrite Ls. pose proof (IH t1 H') as G. unfold t1 in G at 2 3 4. cbn [with_pen t_x t_y t_pen] in G. rewrite X, Y in G. apply G. apply worn_out_pen0.
Qed.
(** A row which is shown and followed by nothing is read *)
Lemma row_split t x y a b : read_row t x y (a + b) = read_row t x y a ++ read_row t (x + a) y b.
Proof. unfold read_row. rewrite seq_app, flat_map_app. reflexivity. Qed.
Lemma char_read u t x y c cs : (forall i, i < chw u c -> t_cell t (x + i) y = Part c i (worn (Some cs))) -> read_row t x y (chw u c) = placed_chars u [c].
Proof.
  intros H. unfold placed_chars. cbn [filter]. destruct (chw u c) as [|n] eqn:E; [reflexivity|]. cbn [Nat.ltb Nat.leb]. unfold read_row. cbn [seq flat_map]. pose proof (H 0 ltac:(lia)) as H0. rewrite Nat.add_0_r in H0. rewrite H0. cbn [read_cell app]. f_equal.
  assert (G : forall l, (forall j, In j l -> read_cell (t_cell t j y) = []) -> flat_map (fun j => read_cell (t_cell t j y)) l = []).
  { induction l as [|j l IH]; intros F; [reflexivity|]. cbn [flat_map]. rewrite F by (left; reflexivity). apply IH. intros; apply F; right; assumption. }
  apply G. intros j I. apply in_seq in I. replace j with (x + S (j - x - 1)) by lia. rewrite H by lia. reflexivity.
Qed.
Lemma shown_read u t y : forall d x, shown_at u t x y d -> read_row t x y (sumw (chw u) (map fst d)) = placed_chars u (map fst d).
Proof.
  induction d as [|(c & cs) d IH]; intros x H; [reflexivity|]. cbn [map fst]. rewrite sumw_cons, row_split. rewrite (@char_read u t x y c cs).
  - rewrite IH; [unfold placed_chars; cbn [filter]; destruct (0 <? chw u c); reflexivity|]. intros a c' cs' b i E L. pose proof (H ((c, cs) :: a) c' cs' b i) as G. cbn [app map fst] in G. rewrite sumw_cons, Nat.add_assoc in G. apply G; [congruence|exact L].
  - intros i L. pose proof (H [] c cs d i eq_refl L) as G. cbn [map] in G. unfold sumw in G. cbn [map sum] in G. rewrite Nat.add_0_r in G. exact G.
Qed.
Lemma nothing_read t y : forall n x, (forall x', x <= x' -> exists b, t_cell t x' y = Nothing b) -> read_row t x y n = repeat 32%N n.
Proof.
  induction n as [|n IH]; intros x H; [reflexivity|]. unfold read_row. cbn [seq flat_map repeat]. destruct (H x (le_n _)) as (b & ->). cbn [read_cell app]. f_equal. apply IH. intros x' L. apply H. lia.
Qed.

(** What is read on the rows of a line depends on these rows only *)
Lemma reads_line_rows u k t t' p l x y w : (forall x y', y <= y' < y + l_rows p -> t_cell t' x y' = t_cell t x y') -> reads_line u k t p l x y w -> reads_line u k t' p l x y w.
Proof.
  intros F. assert (R : forall x i w, i < l_rows p -> read_row t' x (y + i) w = read_row t x (y + i) w) by (intros; unfold read_row; apply flat_map_ext; intros j; rewrite F by lia; reflexivity).
  assert (R0 : forall x w, l_rows p = 1 -> read_row t' x y w = read_row t x y w) by (intros x' w' H; pose proof (R x' 0 w' ltac:(lia)) as G; rewrite Nat.add_0_r in G; exact G).
  destruct l as [c|cells|als| |]; cbn [reads_line reads_source].
  - intros (parts & A & B & C & D). exists parts. split; [exact A|]. split; [exact B|]. split; [|exact D]. intros i part E. destruct (C i part E) as (a & b & G & H). exists a, b. rewrite R; [auto|]. rewrite <- A. apply nth_error_Some. congruence.
  - intros (A & B & C & D). split; [exact A|]. split; [exact B|]. split.
    + intros j J. rewrite <- (C j J). unfold read_block. f_equal. rewrite !flat_map_concat_map. f_equal. apply map_ext_in. intros i I. apply in_seq in I. unfold read_row. apply flat_map_ext. intros i2. rewrite F by lia. reflexivity.
    + intros j d J Dd. rewrite R by exact Dd. auto.
  - intros (A & B & pos & C). split; [exact A|]. split; [exact B|]. exists pos. rewrite R0 by exact B. exact C.
  - intros (A & B). split; [exact A|]. rewrite R0 by exact A. exact B.
  - intros (A & B). split; [exact A|]. rewrite R0 by exact A. exact B.
Qed.

(** ** An answer *)

Section Answer.
Context (u : unicode) (k : MadSkin) (um : nat) (parse : str -> list MLine) (debug : str -> str) (size : option (N * N)).
Context (U : usual u no_special k).
Let w := N.to_nat (fst (terminal_size size)).
Context (Hw : 5 <= w).

Lemma space_drawn ls n : drawn (ls_repeat_space ls n) = repeat (32%N, ls_cs ls) n.
Proof.
  unfold ls_repeat_space, cs_repeat_char. destruct n as [|n]; [reflexivity|]. cbn [Nat.ltb Nat.leb]. unfold drawn. cbn [flat_map]. rewrite app_nil_r, map_repeat. reflexivity.
Qed.
Lemma compounds_drawn ls : forall cs, drawn (flat_map (compound_out no_special k ls) cs) = flat_map (fun c => map (fun ch => (ch, compound_style k ls c)) (src c)) cs.
Proof.
  induction cs as [|c cs IH]; [reflexivity|]. cbn [flat_map]. unfold drawn. rewrite flat_map_app. fold (drawn (compound_out no_special k ls c)) (drawn (flat_map (compound_out no_special k ls) cs)). rewrite IH. f_equal.
  unfold compound_out. cbn [no_special]. unfold cs_queue, drawn. cbn [flat_map]. apply app_nil_r.
Qed.
Lemma key_printed b key : exists o, write_composite u no_special k (key_composite b key) = Ret o /\ Forall styled_cmd o
  /\ drawn o = repeat (32%N, ls_cs (paragraph k)) (left_margin (paragraph k)) ++ (91%N, ls_cs (paragraph k)) :: map (fun c => (c, key_style k b key)) key ++ [(93%N, ls_cs (paragraph k)); (32%N, ls_cs (paragraph k))].
Proof.
  unfold write_composite, display_inline, key_composite, fc_from. cbn [mc_style mc_compounds kind_of]. unfold write_fmt_composite. cbn [fc_kind line_style bind mark_overflow]. cbn [margins_in fc_completions fc_spacing visible_length optional_completions fc_compounds].
  replace (mark_overflow k KParagraph) with (Ret tt) by (unfold mark_overflow; destruct (indent_mode k); reflexivity). cbn [bind]. replace (composite_mark k KParagraph) with (@nil cmd) by (unfold composite_mark; destruct (indent_mode k); reflexivity).
  change (cs_repeat_space (ls_cs (paragraph k)) 0) with (@nil cmd). cbn [app]. rewrite Nat.add_0_l, !app_nil_r. eexists. split; [reflexivity|]. split.
  - apply Forall_app. split; [unfold ls_repeat_space, cs_repeat_char; destruct (0 <? _); repeat constructor; eexists _, _; reflexivity|].
    cbn [app flat_map compound_out no_special]. unfold cs_queue. repeat (constructor; [eexists _, _; reflexivity|]). constructor.
  - unfold drawn. rewrite flat_map_app. fold (drawn (ls_repeat_space (paragraph k) (left_margin (paragraph k)))). rewrite space_drawn. f_equal. fold (drawn (flat_map (compound_out no_special k (paragraph k)) (mc_compounds (key_composite b key)))).
    rewrite compounds_drawn. unfold key_composite. cbn [mc_compounds flat_map src map app]. f_equal. f_equal.
    replace (compound_style k (paragraph k) (mkCompound key b false false false)) with (key_style k b key); [reflexivity|].
    unfold key_style, compound_style, is_ellipsis. cbn [src c_italic c_strikeout c_bold c_code]. destruct (list_eq_dec N.eq_dec key [8230%N]) as [->|N]; [reflexivity|].
    destruct key as [|c [|c' key]]; try reflexivity. destruct (N.eqb_spec c c_ellipsis) as [->|]; [contradiction N; reflexivity|reflexivity].
Qed.
Lemma text_printed cs : paragraph_needs k w (sumw (chw u) (text_of cs)) <= w ->
  exists o, print_text u no_special k um [MNormal (mkMC MParagraph cs)] size = Ret (o ++ [Print [10%N]]) /\ Forall styled_cmd o
  /\ drawn o = repeat (32%N, ls_cs (paragraph k)) (paragraph_left k w (sumw (chw u) (text_of cs))) ++ flat_map (fun c => map (fun ch => (ch, compound_style k (paragraph k) c)) (src c)) cs.
Proof.
  intros L. destruct U as (_ & Hu & _). set (fc := fc_from u k (mkMC MParagraph cs)).
  assert (V : visible_length fc = sumw (chw u) (text_of cs)).
  { unfold fc, fc_from. cbn [visible_length mc_style mc_compounds kind_of]. change (sum (map (fun c => strw u (src c)) cs) = sumw (chw u) (text_of cs)). clear - Hu. induction cs as [|c cs IH]; [reflexivity|]. cbn [map text_of flat_map]. change (sum (strw u (src c) :: map (fun c => strw u (src c)) cs)) with (strw u (src c) + sum (map (fun c => strw u (src c)) cs)).
    rewrite sumw_app. fold (text_of cs). rewrite <- IH. f_equal. apply Hu. }
  assert (M : margins_in (paragraph k) (Some w) = (paragraph_margin k w (left_margin (paragraph k)), paragraph_margin k w (right_margin (paragraph k)))).
  { unfold margins_in, paragraph_margin. destruct (_ <? _); reflexivity. }
  assert (Ft : term_text u k um [MNormal (mkMC MParagraph cs)] size = Ret (mkText [Normal fc] (Some w))).
  { unfold term_text. unfold w in *. destruct (terminal_size size) as (W & h). cbn [fst] in *. unfold from_text. cbn [map line_from]. fold fc.
    replace (fix_all_tables u k [Normal fc] (N.to_nat W)) with (Ret [Normal fc]) by reflexivity. cbn [bind].
    assert (J : justify_blocks [Normal fc] = [Normal fc]) by reflexivity. rewrite J. destruct (Nat.leb_spec 3 (N.to_nat W)); [|lia].
    cbn [hard_wrap_lines]. replace (line_style k (fc_kind fc)) with (Ret (paragraph k)) by reflexivity. cbn [bind]. rewrite M, V. unfold paragraph_needs in L. destruct (Nat.leb_spec (sumw (chw u) (text_of cs) + paragraph_margin k (N.to_nat W) (left_margin (paragraph k)) + paragraph_margin k (N.to_nat W) (right_margin (paragraph k))) (N.to_nat W)); [|lia].
    reflexivity. }
  unfold print_text. rewrite Ft, bind_ret. unfold display_text. cbn [txt_lines txt_width display_lines write_fmt_line].
  unfold write_fmt_composite. replace (line_style k (fc_kind fc)) with (Ret (paragraph k)) by reflexivity. cbn [bind]. replace (mark_overflow k (fc_kind fc)) with (Ret tt) by (unfold mark_overflow; destruct (indent_mode k); reflexivity). cbn [bind].
  rewrite M. replace (fc_completions fc) with (0, 0) by reflexivity. replace (fc_spacing fc) with (@None Spacing) by reflexivity. rewrite V. cbn [optional_completions].
  set (lm := paragraph_margin k w (left_margin (paragraph k))). set (n := sumw (chw u) (text_of cs)) in *.
  assert (Cp : fst (completions (ls_align (paragraph k)) (n + lm + paragraph_margin k w (right_margin (paragraph k))) w) + lm = paragraph_left k w n).
  { unfold paragraph_left. fold lm. f_equal. unfold completions, paragraph_needs in *. fold lm in L |- *. destruct (Nat.leb_spec w (n + lm + paragraph_margin k w (right_margin (paragraph k)))) as [E|E].
    - replace (w - _) with 0 by lia. destruct (ls_align (paragraph k)); reflexivity.
    - destruct (ls_align (paragraph k)); reflexivity. }
  destruct (completions _ _ _) as (lp & rp). cbn [fst] in Cp. rewrite Cp. cbn [bind]. eexists. split; [reflexivity|].
  replace (composite_mark k (fc_kind fc)) with (@nil cmd) by (unfold composite_mark; destruct (indent_mode k); reflexivity). change (cs_repeat_space (ls_cs (paragraph k)) 0) with (@nil cmd). cbn [app]. rewrite app_nil_r. change (fc_compounds fc) with cs. split.
  - apply Forall_app. split; [unfold ls_repeat_space, cs_repeat_char; destruct (0 <? _); repeat constructor; eexists _, _; reflexivity|]. clear. induction cs as [|c cs IH]; [constructor|]. cbn [flat_map]. apply Forall_app. split; [|exact IH]. unfold compound_out. cbn [no_special]. constructor; [eexists _, _; reflexivity|constructor].
  - unfold drawn. rewrite flat_map_app. fold (drawn (ls_repeat_space (paragraph k) (paragraph_left k w n))) (drawn (flat_map (compound_out no_special k (paragraph k)) cs)). rewrite space_drawn, compounds_drawn. reflexivity.
Qed.

Lemma row_text b b' key cs : map fst (answer_row u k w b key cs) = map fst (answer_row u k w b' key cs).
Proof. unfold answer_row. rewrite !map_app. cbn [map fst]. rewrite !map_app, !map_map. reflexivity. Qed.
Lemma answer_printed a b cs : parse (a_md a) = [MNormal (mkMC MParagraph cs)] -> answer_fits u k w (a_key a) cs ->
  exists o, print_items u no_special k um parse debug size [PKey b (a_key a); PText (a_md a)] = Ret o
  /\ forall tm, t_x tm = 0 -> t_pen tm = pen0 ->
     let tm' := paper_run u w tm o in
     t_x tm' = 0 /\ t_y tm' = t_y tm + 1 /\ t_pen tm' = pen0 /\ shown_at u tm' 0 (t_y tm) (answer_row u k w b (a_key a) cs)
     /\ (forall x y, y <> t_y tm \/ sumw (chw u) (map fst (answer_row u k w b (a_key a) cs)) <= x -> t_cell tm' x y = t_cell tm x y).
Proof.
  intros Ep (F1 & F2 & F3 & F4). destruct (@key_printed b (a_key a)) as (o1 & E1 & S1 & D1). destruct (@text_printed cs F2) as (o2 & E2 & S2 & D2).
  exists ((o1 ++ o2) ++ [Print [10%N]]). split; [cbn [print_items print_item]; rewrite E1, Ep, E2; cbn [bind]; rewrite app_nil_r, <- app_assoc; reflexivity|].
  assert (Dr : drawn (o1 ++ o2) = answer_row u k w b (a_key a) cs).
  { unfold drawn. rewrite flat_map_app. fold (drawn o1) (drawn o2). rewrite D1, D2. unfold answer_row. rewrite <- app_assoc. cbn [app]. rewrite <- app_assoc. reflexivity. }
  assert (St : Forall styled_cmd (o1 ++ o2)) by (apply Forall_app; split; assumption).
  assert (Tx : out_text (o1 ++ o2) = map fst (answer_row u k w b (a_key a) cs)) by (rewrite <- Dr; symmetry; apply drawn_text, St).
  assert (Nw : narrow_out u w (o1 ++ o2)).
  { split; [exact St|]. rewrite Tx. split; [|rewrite (row_text b false); exact F1]. unfold answer_row. rewrite map_app. cbn [map fst]. rewrite !map_app. intros I. apply in_app_or in I as [I|[I|I]]; [|discriminate I|].
    - apply in_map_iff in I as (e & Q & I). apply repeat_spec in I. subst e. discriminate Q.
    - apply in_app_or in I as [I|I]; [rewrite map_map, map_id in I; exact (F3 I)|]. apply in_app_or in I as [I|I]; [cbn in I; destruct I as [I|[I|[]]]; discriminate I|]. apply in_app_or in I as [I|I].
      + apply in_map_iff in I as (e & Q & I). apply repeat_spec in I. subst e. discriminate Q.
      + apply F4. apply in_map_iff in I as (e & Q & I). apply in_flat_map in I as (c & Ic & I). apply in_map_iff in I as (ch & <- & I). cbn [fst] in Q. subst ch. unfold text_of. apply in_flat_map. exists c. split; assumption. }
  intros tm X P. cbv zeta. rewrite (@paper_line u w _ tm Nw X). cbn [go_to t_x t_y t_pen t_cell]. split; [reflexivity|]. split; [reflexivity|]. split; [|split].
  - pose proof (@paper_pen u w (o1 ++ o2) tm) as Q. rewrite (@paper_styled u w (o1 ++ o2) tm St) in Q; [|apply Nw|rewrite X; apply Nw]. rewrite Q, P. clear - St. induction St as [|c o (cs & s & ->) _ IH]; [reflexivity|]. cbn [pen_after]. rewrite worn_out_pen0. exact IH.
  - rewrite <- Dr. pose proof (@shown_run u (o1 ++ o2) tm St P) as H. rewrite X in H. exact H.
  - intros x y H. rewrite run_above; [reflexivity|exact St|]. rewrite X, Tx. lia.
Qed.

Lemma items_app a b : print_items u no_special k um parse debug size (a ++ b)
  = (x <- print_items u no_special k um parse debug size a ;; y <- print_items u no_special k um parse debug size b ;; Ret (x ++ y)).
Proof.
  induction a as [|p a IH]; cbn [app print_items]; [destruct (print_items u no_special k um parse debug size b); reflexivity|]. destruct (print_item u no_special k um parse debug size p); cbn [bind]; [|reflexivity|reflexivity].
  rewrite IH. destruct (print_items u no_special k um parse debug size a); cbn [bind]; [|reflexivity|reflexivity]. destruct (print_items u no_special k um parse debug size b); cbn [bind]; [|reflexivity|reflexivity]. rewrite app_assoc. reflexivity.
Qed.
Definition blank_after (t : term) (x y : nat) : Prop := forall x', x <= x' -> exists b, t_cell t x' y = Nothing b.
Lemma answers_printed (is_default : Answer -> bool) : forall answers comps,
  Forall2 (fun a cs => parse (a_md a) = [MNormal (mkMC MParagraph cs)] /\ answer_fits u k w (a_key a) cs) answers comps ->
  exists o, print_items u no_special k um parse debug size (flat_map (fun a => [PKey (is_default a) (a_key a); PText (a_md a)]) answers) = Ret o
  /\ forall tm, t_x tm = 0 -> t_pen tm = pen0 -> blank_from tm (t_y tm) ->
     let tm' := paper_run u w tm o in
     t_x tm' = 0 /\ t_y tm' = t_y tm + length answers /\ t_pen tm' = pen0 /\ blank_from tm' (t_y tm') /\ (forall x y, y < t_y tm -> t_cell tm' x y = t_cell tm x y)
     /\ forall i a cs, nth_error answers i = Some a -> nth_error comps i = Some cs ->
        shown_at u tm' 0 (t_y tm + i) (answer_row u k w (is_default a) (a_key a) cs)
        /\ blank_after tm' (sumw (chw u) (map fst (answer_row u k w (is_default a) (a_key a) cs))) (t_y tm + i).
Proof.
  intros answers comps H. induction H as [|a cs answers comps (Ep & Ff) _ (o & Eo & IH)].
  - exists []. split; [reflexivity|]. intros tm X P B. cbn [paper_run fold_left length]. split; [exact X|]. split; [symmetry; apply Nat.add_0_r|]. split; [exact P|]. split; [exact B|]. split; [reflexivity|]. intros [|i]; discriminate.
  - destruct (@answer_printed a (is_default a) cs Ep Ff) as (o1 & E1 & H1). exists (o1 ++ o). split; [cbn [flat_map]; rewrite items_app, E1, bind_ret, Eo, bind_ret; reflexivity|].
    intros tm X P B. cbv zeta. rewrite paper_app. set (t1 := paper_run u w tm o1). destruct (H1 tm X P) as (X1 & Y1 & P1 & S1 & C1). cbv zeta in *. fold t1 in X1, Y1, P1, S1, C1.
    assert (B1 : blank_from t1 (t_y t1)) by (intros x y L; rewrite Y1 in L; rewrite C1 by lia; apply B; lia).
    destruct (IH t1 X1 P1 B1) as (X2 & Y2 & P2 & B2 & C2 & R2). cbv zeta in *. set (t2 := paper_run u w t1 o) in *. split; [exact X2|]. split; [rewrite Y2, Y1; cbn [length]; lia|]. split; [exact P2|]. split; [exact B2|].
    split; [intros x y L; rewrite C2 by lia; apply C1; lia|]. intros [|i] a' cs' Ha Hc.
    + cbn [nth_error] in Ha, Hc. injection Ha as <-. injection Hc as <-. rewrite Nat.add_0_r. split.
      * eapply shown_frame; [|exact S1]. intros x' _. apply C2. lia.
      * intros x' L. rewrite C2 by lia. rewrite C1 by (right; exact L). apply B. lia.
    + cbn [nth_error] in Ha, Hc. destruct (R2 i a' cs' Ha Hc) as (A1 & A2). rewrite Y1 in A1, A2. replace (t_y tm + S i) with (t_y tm + 1 + i) by lia. split; assumption.
Qed.
End Answer.

(** A question is printed from the start of a row, on a terminal of which nothing is written below. Its text is read first. Each answer is then on its own row, in order, with its key between brackets, in bold if and only if it's the default answer,
    then its text with its styles, provided there's enough place for them on a row, and nothing else. The cursor is then at the start of the row after the last answer, with the default style, and what was above isn't changed. *)
Theorem C103_prompt : forall u k um parse debug size q, usual u no_special k ->
  let w := N.to_nat (fst (terminal_size size)) in
  5 <= w -> is_white u 32%N = true ->
  let text := match q_md q with Some md => parse md | None => [] end in
  Forall (area_source u k w) text -> single_lines k text ->
  forall comps, Forall2 (fun a cs => parse (a_md a) = [MNormal (mkMC MParagraph cs)] /\ answer_fits u k w (a_key a) cs) (q_answers q) comps ->
  exists out ps, print_items u no_special k um parse debug size (prompt q) = Ret out
  /\ length ps = length text /\ Forall (fun p => 1 <= l_rows p) ps /\ aligned text ps
  /\ forall tm, t_x tm = 0 -> t_pen tm = pen0 -> blank_from tm (t_y tm) ->
     let tm' := paper_run u w tm out in let y0 := t_y tm + sum (map l_rows ps) in
     t_x tm' = 0 /\ t_y tm' = y0 + length (q_answers q) /\ t_pen tm' = pen0 /\ blank_from tm' (t_y tm') /\ (forall x y, y < t_y tm -> t_cell tm' x y = t_cell tm x y)
     /\ (forall i l p, nth_error text i = Some l -> nth_error ps i = Some p -> reads_line u k tm' p l 0 (t_y tm + sum (map l_rows (firstn i ps))) w)
     /\ forall i a cs, nth_error (q_answers q) i = Some a -> nth_error comps i = Some cs ->
        exists default, (default = true <-> q_default q = Some (a_key a))
        /\ let row := answer_row u k w default (a_key a) cs in
           shown_at u tm' 0 (y0 + i) row /\ (forall x, sumw (chw u) (map fst row) <= x -> exists b, t_cell tm' x (y0 + i) = Nothing b)
           /\ read_row tm' 0 (y0 + i) w = placed_chars u (map fst row) ++ spaces (w - sumw (chw u) (map fst row)).
Proof.
  intros u k um parse debug size q U w Hw Wh text T SL comps HF.
  set (isd := fun a => match q_default q with Some d => str_eqb d (a_key a) | None => false end).
  destruct (@answers_printed u k um parse debug size U Hw isd (q_answers q) comps HF) as (o2 & E2 & H2). fold w in H2.
  assert (Q : exists o1 ps, print_items u no_special k um parse debug size (match q_md q with Some md => [PText md] | None => [] end) = Ret o1
    /\ length ps = length text /\ Forall (fun p => 1 <= l_rows p) ps /\ aligned text ps
    /\ forall tm, t_x tm = 0 -> t_pen tm = pen0 -> blank_from tm (t_y tm) -> let tm' := paper_run u w tm o1 in
       t_x tm' = 0 /\ t_y tm' = t_y tm + sum (map l_rows ps) /\ t_pen tm' = pen0 /\ blank_from tm' (t_y tm') /\ (forall x y, y < t_y tm -> t_cell tm' x y = t_cell tm x y)
       /\ forall i l p, nth_error text i = Some l -> nth_error ps i = Some p -> reads_line u k tm' p l 0 (t_y tm + sum (map l_rows (firstn i ps))) w).
  { unfold text in *. destruct (q_md q) as [md|].
    - destruct (@C102_printed u k um (parse md) size U Hw T Wh SL) as (t & out & ps & Et & Eo & L1 & L2 & L3 & L4 & H). exists out, ps. split; [cbn [print_items print_item]; rewrite Eo; cbn [bind]; rewrite app_nil_r; reflexivity|].
      split; [exact L1|]. split; [exact L2|]. split; [exact L4|]. intros tm X P B. destruct (H tm X B) as (A1 & A2 & A3 & A4 & _ & A6). cbv zeta in *. fold w in A1, A2, A3, A4, A6. rewrite L3. split; [exact A1|]. split; [exact A2|]. split; [apply A3, P|].
      split; [intros x y L; rewrite A4 by lia; apply B; lia|]. split; [intros x y L; apply A4; lia|exact A6].
    - exists [], []. split; [reflexivity|]. split; [reflexivity|]. split; [constructor|]. split; [intros [|i]; discriminate|]. intros tm X P B. cbn [paper_run fold_left map sum]. unfold sum. cbn. rewrite Nat.add_0_r. do 5 (split; [auto|]). intros [|i]; discriminate. }
  destruct Q as (o1 & ps & E1 & L1 & L2 & L3 & H1). exists (o1 ++ o2), ps. split; [change (prompt q) with ((match q_md q with Some md => [PText md] | None => [] end) ++ flat_map (fun a => [PKey (isd a) (a_key a); PText (a_md a)]) (q_answers q)); rewrite items_app, E1, bind_ret, E2; reflexivity|]. do 3 (split; [assumption|]).
  intros tm X P B. cbv zeta. rewrite paper_app. set (t1 := paper_run u w tm o1). destruct (H1 tm X P B) as (X1 & Y1 & P1 & B1 & C1 & R1). cbv zeta in *. fold t1 in X1, Y1, P1, B1, C1, R1.
  destruct (H2 t1 X1 P1 B1) as (X2 & Y2 & P2 & B2 & C2 & R2). cbv zeta in *. set (t2 := paper_run u w t1 o2) in *. rewrite Y1 in Y2, R2.
  split; [exact X2|]. split; [exact Y2|]. split; [exact P2|]. split; [exact B2|]. split; [intros x y L; rewrite C2 by lia; apply C1, L|]. split.
  - intros i l p Hi Hp. eapply reads_line_rows; [|exact (R1 i l p Hi Hp)]. intros x y L. apply C2. rewrite Y1.
    assert (sum (map l_rows (firstn i ps)) + l_rows p <= sum (map l_rows ps)); [|lia]. clear - Hp. revert i Hp. induction ps as [|p0 ps IH]; intros [|i] Hp; try discriminate; cbn [nth_error firstn map] in *.
    + injection Hp as ->. change (sum (l_rows p :: map l_rows ps)) with (l_rows p + sum (map l_rows ps)). unfold sum at 1. cbn. lia.
    + change (sum (l_rows p0 :: map l_rows ps)) with (l_rows p0 + sum (map l_rows ps)). change (sum (l_rows p0 :: map l_rows (firstn i ps))) with (l_rows p0 + sum (map l_rows (firstn i ps))). specialize (IH i Hp). lia.
  - intros i a cs Ha Hc. destruct (R2 i a cs Ha Hc) as (A1 & A2). exists (isd a). split.
    + unfold isd. destruct (q_default q) as [d|]; [|split; discriminate]. split; [intros E; apply P_Ask.str_eqb_eq in E; congruence|intros E; apply P_Ask.str_eqb_eq; congruence].
    + cbv zeta. split; [exact A1|]. split; [exact A2|]. set (row := answer_row u k w (isd a) (a_key a) cs) in *.
      assert (Lr : sumw (chw u) (map fst row) <= w).
      { unfold row. rewrite (row_text u k size (isd a) false). fold w. assert (Ff : answer_fits u k w (a_key a) cs) by exact (proj2 (one_of _ HF Ha Hc)). apply Ff. }
      replace w with (sumw (chw u) (map fst row) + (w - sumw (chw u) (map fst row))) at 1 by lia. rewrite row_split, Nat.add_0_l. rewrite (shown_read A1), (@nothing_read t2 _ _ _ A2). reflexivity.
Qed.
Print Assumptions C103_prompt.

(** A question made of the text of [C101_example], answers "Yes" and "No" (the default one), on a terminal of 17 columns *)
Definition demo_parse (s : str) : list MLine :=
  match s with
  | [113%N] => whole_text
  | [c] => [MNormal (mkMC MParagraph [mkCompound [c] true false false false; mkCompound [101; 115]%N false false false false])]
  | _ => [MNormal (mkMC MParagraph [mkCompound s false false false false])]
  end.
Definition demo_comps (s : str) : list Compound := match demo_parse s with [MNormal c] => mc_compounds c | _ => [] end.
Definition demo_question : Question := set_default (add_answer (add_answer (question_new [113%N]) [121%N] [89%N]) [110%N] [78; 111]%N) [110%N].
Definition empty_paper : term := mkTerm (fun _ _ => Nothing Reset) 0 0 pen0.
Example C103_example : usual demo no_special skin_default /\ Forall (area_source demo skin_default 17) (demo_parse [113%N])
  /\ Forall2 (fun a cs => demo_parse (a_md a) = [MNormal (mkMC MParagraph cs)] /\ answer_fits demo skin_default 17 (a_key a) cs) (q_answers demo_question) [demo_comps [89%N]; demo_comps [78; 111]%N]
  /\ exists out, print_items demo no_special skin_default 1000 demo_parse (fun s => s) (Some (17, 12)%N) (prompt demo_question) = Ret out
  /\ let t := paper_run demo 17 empty_paper out in t_x t = 0 /\ t_y t = 12
  /\ map (fun y => visible demo (read_row t 0 y 17)) (seq 10 2) = [[91; 121; 93; 89; 101; 115]; [91; 110; 93; 78; 111]]%N
  /\ t_cell t 1 10 = Part 121%N 0 pen0 /\ t_cell t 4 10 <> Part 89%N 0 pen0 /\ t_cell t 1 11 <> Part 110%N 0 pen0 /\ t_cell t 4 11 = Part 78%N 0 pen0.
Proof.
  split; [exact demo_usual|]. split; [exact whole_source|]. split.
  { assert (F : forall key cs, sumw (chw demo) (map fst (answer_row demo skin_default 17 false key cs)) <=? 17 = true -> paragraph_needs skin_default 17 (sumw (chw demo) (text_of cs)) <=? 17 = true -> existsb (N.eqb 10) (key ++ text_of cs) = false -> answer_fits demo skin_default 17 key cs).
    { intros key cs A B C. assert (D : ~ In 10%N (key ++ text_of cs)) by (intros I; assert (existsb (N.eqb 10) (key ++ text_of cs) = true) by (apply existsb_exists; exists 10%N; auto); congruence).
      split; [apply Nat.leb_le, A|]. split; [apply Nat.leb_le, B|]. split; intros I; apply D, in_or_app; auto. }
    repeat (constructor; [split; [reflexivity|apply F; vm_compute; reflexivity]|]). constructor. }
  eexists. split; [vm_compute; reflexivity|]. cbv zeta. do 4 (split; [vm_compute; reflexivity|]). split; [vm_compute; discriminate|]. split; [vm_compute; discriminate|vm_compute; reflexivity].
Qed.
(** The text of an answer is formatted for the whole width of the terminal, the place taken by its key being forgotten: an answer of 17 columns, which would be on a row without its key, is cut anywhere by the terminal *)
Example C103_wide_example : exists out, print_items demo no_special skin_default 1000 demo_parse (fun s => s) (Some (17, 12)%N) (prompt (add_answer (question_new [78; 111]%N) [121%N] (repeat 97%N 17))) = Ret out
  /\ let t := paper_run demo 17 empty_paper out in t_y t = 3
  /\ map (fun y => visible demo (read_row t 0 y 17)) (seq 0 3) = [[78; 111]; [91; 121; 93] ++ repeat 97 13; repeat 97 4]%N.
Proof. eexists. split; [vm_compute; reflexivity|]. cbv zeta. split; vm_compute; reflexivity. Qed.
