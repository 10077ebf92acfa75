(** * A text which is printed is read on the terminal, line after line (C102) *)
From Verif Require Import Base L_Base M_Style M_Fit M_Wrap M_TblFit S_Wrap M_Text S_Text L_Text L_Text2 M_Fitter M_View S_View M_Render S_Render L_Render M_Area S_Fit S_Input L_Input2 S_Pen S_Area S_Origin S_Paint S_Border S_Read S_Cells S_Local S_Whole S_Paper L_Clean L_View Demo.
From Verif Require Import P_Wrap P_Text P_Render P_Local P_Area P_Pen P_Origin P_Paint P_Read P_Border P_Cells P_Whole.
Set Implicit Arguments.
Open Scope nat_scope.

(** ** Printing on a row which is large enough *)

Lemma paper_app u w t a b : paper_run u w t (a ++ b) = paper_run u w (paper_run u w t a) b.
Proof. apply fold_left_app. Qed.
Lemma type_str_place u p : forall s t, t_x (type_str u t p s) = t_x t + sumw (chw u) s /\ t_y (type_str u t p s) = t_y t.
Proof.
  induction s as [|c s IH]; intros t; [cbn; unfold sumw; cbn; lia|]. cbn [type_str]. destruct (IH (type_char u t p c)) as (-> & ->). rewrite sumw_cons. cbn. lia.
Qed.
Lemma paper_str_type u w p : forall s t, ~ In 10%N s -> t_x t + sumw (chw u) s <= w -> paper_str u w t p s = type_str u t p s.
Proof.
  induction s as [|c s IH]; intros t N L; [reflexivity|]. cbn [paper_str type_str]. rewrite sumw_cons in L. unfold paper_char.
  destruct (N.eqb_spec c 10) as [->|Q]; [destruct N; left; reflexivity|]. rewrite (proj2 (Nat.ltb_ge _ _)) by lia. apply IH; [intros I; apply N; right; exact I|cbn; lia].
Qed.
Lemma paper_styled u w : forall o t, Forall styled_cmd o -> ~ In 10%N (out_text o) -> t_x t + sumw (chw u) (out_text o) <= w -> paper_run u w t o = term_run u t o.
Proof.
  induction o as [|c o IH]; intros t H N L; [reflexivity|]. inversion H as [|? ? (cs & s & ->) H']; subst. unfold out_text in N, L. cbn [flat_map cmd_text] in N, L. fold (out_text o) in N, L. rewrite sumw_app in L.
  unfold paper_run, term_run. cbn [fold_left paper_step term_step]. rewrite paper_str_type; [|intros I; apply N, in_or_app; left; exact I|lia].
  apply IH; [exact H'|intros I; apply N, in_or_app; right; exact I|]. cbn [with_pen t_x]. rewrite (proj1 (type_str_place _ _ _ _)). lia.
Qed.
Lemma run_place u : forall o t, Forall styled_cmd o -> t_x (term_run u t o) = t_x t + sumw (chw u) (out_text o) /\ t_y (term_run u t o) = t_y t.
Proof.
  induction o as [|c o IH]; intros t H; [unfold sumw; cbn; lia|]. inversion H as [|? ? (cs & s & ->) H']; subst. unfold term_run. cbn [fold_left term_step]. fold (term_run u (with_pen (type_str u t (worn_over (t_pen t) cs) s) (worn_out (t_pen t) cs)) o).
  destruct (IH (with_pen (type_str u t (worn_over (t_pen t) cs) s) (worn_out (t_pen t) cs)) H') as (-> & ->). unfold out_text. cbn [flat_map cmd_text]. fold (out_text o). rewrite sumw_app. cbn [with_pen t_x t_y]. destruct (type_str_place u (worn_over (t_pen t) cs) s t) as (-> & ->). lia.
Qed.
Lemma paper_newline u w t : paper_step u w t (Print [10%N]) = go_to t 0 (t_y t + 1).
Proof. reflexivity. Qed.
Lemma paper_pen u w : forall out t, t_pen (paper_run u w t out) = pen_after (t_pen t) out.
Proof.
  assert (P : forall p s t, t_pen (paper_str u w t p s) = t_pen t).
  { intros p. induction s as [|c s IH]; intros t; [reflexivity|]. cbn [paper_str]. rewrite IH. unfold paper_char. destruct (N.eqb c 10); [reflexivity|]. destruct (_ <? _); reflexivity. }
  induction out as [|c out IH]; intros t; [reflexivity|]. unfold paper_run. cbn [fold_left]. fold (paper_run u w (paper_step u w t c) out). rewrite IH. destruct c; cbn [paper_step term_step pen_after with_pen t_pen]; try reflexivity. f_equal. apply P.
Qed.

(** ** The rows which are written *)

Lemma char_cell u t p c x y : t_cell (type_char u t p c) x y = if (y =? t_y t) && (t_x t <=? x) && (x <? t_x t + chw u c) then Part c (x - t_x t) p else t_cell t x y.
Proof. reflexivity. Qed.
Lemma type_str_above u p : forall s t x y, y <> t_y t \/ t_x t + sumw (chw u) s <= x \/ x < t_x t -> t_cell (type_str u t p s) x y = t_cell t x y.
Proof.
  induction s as [|c s IH]; intros t x y H; [reflexivity|]. cbn [type_str]. rewrite sumw_cons in H. rewrite IH by (cbn; lia). rewrite char_cell.
  destruct (Nat.eqb_spec y (t_y t)); cbn [andb]; [|reflexivity]. destruct (Nat.leb_spec (t_x t) x); cbn [andb]; [|reflexivity]. destruct (Nat.ltb_spec x (t_x t + chw u c)); [|reflexivity]. lia.
Qed.
Lemma run_above u : forall o t x y, Forall styled_cmd o -> y <> t_y t \/ t_x t + sumw (chw u) (out_text o) <= x \/ x < t_x t -> t_cell (term_run u t o) x y = t_cell t x y.
Proof.
  induction o as [|c o IH]; intros t x y H N; [reflexivity|]. inversion H as [|? ? (cs & s & ->) H']; subst. unfold out_text in N. cbn [flat_map cmd_text] in N. fold (out_text o) in N. rewrite sumw_app in N.
  unfold term_run. cbn [fold_left term_step]. fold (term_run u (with_pen (type_str u t (worn_over (t_pen t) cs) s) (worn_out (t_pen t) cs)) o).
  rewrite IH; [|exact H'|cbn [with_pen t_x t_y]; destruct (type_str_place u (worn_over (t_pen t) cs) s t) as (-> & ->); lia]. cbn [with_pen t_cell]. apply type_str_above. lia.
Qed.
(** What is read doesn't depend on the styles *)
Definition same_text (t t' : term) : Prop := forall x y, read_cell (t_cell t x y) = read_cell (t_cell t' x y).
Lemma type_str_same u p p' : forall s t t', t_x t = t_x t' -> t_y t = t_y t' -> same_text t t' -> same_text (type_str u t p s) (type_str u t' p' s).
Proof.
  induction s as [|c s IH]; intros t t' X Y S; [exact S|]. cbn [type_str]. apply IH; [cbn; congruence|cbn; congruence|]. intros x y. rewrite !char_cell, X, Y. destruct (_ && _ && _); [reflexivity|apply S].
Qed.
Lemma run_same u : forall o t t', Forall styled_cmd o -> t_x t = t_x t' -> t_y t = t_y t' -> same_text t t' -> same_text (term_run u t o) (term_run u t' o).
Proof.
  induction o as [|c o IH]; intros t t' H X Y S; [exact S|]. inversion H as [|? ? (cs & s & ->) H']; subst. unfold term_run. cbn [fold_left term_step].
  apply IH; [exact H'| | |]; cbn [with_pen t_x t_y]; [rewrite !(proj1 (type_str_place _ _ _ _)), X; reflexivity|rewrite !(proj2 (type_str_place _ _ _ _)), Y; reflexivity|].
  intros x y. cbn [with_pen t_cell]. apply type_str_same; assumption.
Qed.
(** Blanks written on blanks *)
Lemma blanks_same u p : chw u 32%N = 1 -> forall n t, (forall x, t_x t <= x -> read_cell (t_cell t x (t_y t)) = [32%N]) -> same_text (type_str u t p (repeat 32%N n)) t.
Proof.
  intros H32. induction n as [|n IH]; intros t B x y; [reflexivity|]. cbn [repeat type_str]. rewrite IH.
  - rewrite char_cell, H32. destruct (Nat.eqb_spec y (t_y t)) as [->|]; cbn [andb]; [|reflexivity]. destruct (Nat.leb_spec (t_x t) x); cbn [andb]; [|reflexivity]. destruct (Nat.ltb_spec x (t_x t + 1)); [|reflexivity].
    replace (x - t_x t) with 0 by lia. cbn. symmetry. apply B. lia.
  - intros x' L. rewrite char_cell. change (t_x (type_char u t p 32%N)) with (t_x t + chw u 32%N) in L. change (t_y (type_char u t p 32%N)) with (t_y t). rewrite H32 in *. rewrite Nat.eqb_refl. cbn [andb]. destruct (Nat.leb_spec (t_x t) x'); [|apply B; lia]. cbn [andb]. destruct (Nat.ltb_spec x' (t_x t + 1)); [lia|]. apply B. lia.
Qed.
Definition blank_cmd (c : cmd) : Prop := exists cs n, c = Styled cs (repeat 32%N n).
Lemma run_blanks u : chw u 32%N = 1 -> forall o t, Forall blank_cmd o -> (forall x, t_x t <= x -> read_cell (t_cell t x (t_y t)) = [32%N]) -> same_text (term_run u t o) t.
Proof.
  intros H32. induction o as [|c o IH]; intros t H B x y; [reflexivity|]. inversion H as [|? ? (cs & n & ->) H']; subst. unfold term_run. cbn [fold_left term_step]. fold (term_run u (with_pen (type_str u t (worn_over (t_pen t) cs) (repeat 32%N n)) (worn_out (t_pen t) cs)) o).
  pose proof (@blanks_same u (worn_over (t_pen t) cs) H32 n t B) as S. rewrite IH; [cbn [with_pen t_cell]; apply S|exact H'|]. intros x' L. cbn [with_pen t_x t_y t_cell] in *. destruct (type_str_place u (worn_over (t_pen t) cs) (repeat 32%N n) t) as (E1 & E2). rewrite E1 in L. rewrite E2, S. apply B. lia.
Qed.
(** A completed line is a line and some blanks *)
Lemma space_blank ls n : Forall blank_cmd (ls_repeat_space ls n).
Proof. unfold ls_repeat_space, cs_repeat_char. destruct (0 <? n); repeat constructor. eexists _, n. reflexivity. Qed.
Lemma completed special k l w o : write_fmt_line special k l w false = Ret o -> exists b, write_fmt_line special k l w true = Ret (o ++ b) /\ Forall blank_cmd b.
Proof.
  unfold write_fmt_line. destruct l as [fc|cells|r|]; intros E.
  - unfold write_fmt_composite in *. inv1 E. inv1 E. rewrite E0, bind_ret, E1, bind_ret. destruct (margins_in x w) as (lm & rm). destruct (fc_completions fc) as (a & b). destruct (optional_completions _ _ _) as (c & d). injection E as <-.
    eexists. split; [rewrite <- !app_assoc; cbn [app]; reflexivity|apply space_blank].
  - destruct (optional_completions _ _ _) as (c & d). inv1 E. rewrite E0, bind_ret. injection E as <-. eexists. split; [rewrite <- !app_assoc; cbn [app]; reflexivity|apply space_blank].
  - destruct (optional_completions _ _ _) as (c & d). injection E as <-. exists (ls_repeat_space (paragraph k) d). split; [unfold cs_queue; rewrite <- !app_assoc; cbn [app]; rewrite <- ?app_assoc; reflexivity|apply space_blank].
  - injection E as <-. exists []. split; [rewrite app_nil_r; reflexivity|constructor].
Qed.

Fixpoint rows_from (y : nat) (outs : list (list cmd)) : list (list cmd) :=
  match outs with [] => [] | o :: r => (MoveTo 0 (N.of_nat y) :: o) :: rows_from (S y) r end.
Lemma rows_nth : forall outs y j row, nth_error (rows_from y outs) j = Some row -> exists o, nth_error outs j = Some o /\ row = MoveTo 0 (N.of_nat (y + j)) :: o.
Proof.
  induction outs as [|o outs IH]; intros y [|j] row H; try discriminate; cbn [rows_from nth_error] in H.
  - injection H as <-. exists o. rewrite Nat.add_0_r. auto.
  - apply IH in H as (o' & H & ->). exists o'. split; [exact H|]. do 3 f_equal. lia.
Qed.
Definition narrow_out (u : unicode) (w : nat) (o : list cmd) : Prop := Forall styled_cmd o /\ ~ In 10%N (out_text o) /\ sumw (chw u) (out_text o) <= w.
Definition printed_lines (outs : list (list cmd)) : list cmd := flat_map (fun o => o ++ [Print [10%N]]) outs.
Lemma paper_line u w o t : narrow_out u w o -> t_x t = 0 -> paper_run u w t (o ++ [Print [10%N]]) = go_to (term_run u t o) 0 (t_y t + 1).
Proof.
  intros (S & N & L) X. rewrite paper_app, (@paper_styled u w o t S N) by (rewrite X; exact L). unfold paper_run. cbn [fold_left]. rewrite paper_newline, (proj2 (@run_place u o t S)). reflexivity.
Qed.
(** The same terminal, if it's larger *)
Lemma paper_larger u w w' : w <= w' -> forall outs t, Forall (narrow_out u w) outs -> t_x t = 0 -> paper_run u w t (printed_lines outs) = paper_run u w' t (printed_lines outs).
Proof.
  intros Lw. induction outs as [|o outs IH]; intros t H X; [reflexivity|]. inversion H as [|? ? H1 H2]; subst. unfold printed_lines. cbn [flat_map]. fold (printed_lines outs). rewrite !(paper_app u _ t (o ++ _)).
  rewrite !paper_line; [|destruct H1 as (A & B & C); split; [exact A|split; [exact B|lia]]|exact X|exact H1|exact X]. apply IH; [exact H2|reflexivity].
Qed.
Lemma paper_rows u k w : chw u 32%N = 1 -> forall lines outs fulls, Forall (narrow_out u w) outs ->
  Forall2 (fun l o => write_fmt_line no_special k l (Some w) false = Ret o) lines outs ->
  Forall2 (fun l f => write_fmt_line no_special k l (Some w) true = Ret f) lines fulls ->
  forall t tv, t_x t = 0 -> (forall x y, t_y t <= y -> read_cell (t_cell t x y) = [32%N]) -> same_text t tv ->
  let t' := paper_run u w t (printed_lines outs) in
  t_x t' = 0 /\ t_y t' = t_y t + length outs /\ same_text t' (term_run u tv (concat (rows_from (t_y t) fulls)))
  /\ (forall x y, y < t_y t \/ t_y t + length outs <= y \/ w <= x -> t_cell t' x y = t_cell t x y).
Proof.
  intros H32. induction lines as [|l lines IH]; intros outs fulls HN HO HF t tv X B Sm; inversion HO as [|? o ? outs' Eo HO']; inversion HF as [|? f ? fulls' Ef HF']; subst; cbv zeta.
  - cbn [printed_lines flat_map rows_from concat length]. split; [exact X|]. split; [cbn; lia|]. split; [exact Sm|]. reflexivity.
  - inversion HN as [|? ? N1 HN']; subst. destruct (completed _ _ _ _ Eo) as (b & Eb & Hb). rewrite Ef in Eb. injection Eb as ->. pose proof N1 as (Sty & N10 & Lo).
    unfold printed_lines. cbn [flat_map]. fold (printed_lines outs'). rewrite (paper_app u w t), (@paper_line u w o t N1 X). cbn [rows_from concat app length].
    set (t1 := go_to (term_run u t o) 0 (t_y t + 1)). set (tv1 := term_run u tv (MoveTo 0 (N.of_nat (t_y t)) :: o ++ b)).
    destruct (@run_place u o t Sty) as (Px & Py).
    assert (S1 : same_text t1 tv1).
    { unfold tv1. unfold term_run. cbn [fold_left term_step]. fold (term_run u (mkTerm (t_cell tv) (N.to_nat 0) (N.to_nat (N.of_nat (t_y t))) (t_pen tv)) (o ++ b)). rewrite term_run_app.
      set (tv0 := mkTerm (t_cell tv) (N.to_nat 0) (N.to_nat (N.of_nat (t_y t))) (t_pen tv)). assert (S0 : same_text (term_run u t o) (term_run u tv0 o)) by (apply run_same; [exact Sty|cbn; exact X|cbn; lia|exact Sm]).
      destruct (@run_place u o tv0 Sty) as (Px0 & Py0). intros x y. rewrite (@run_blanks u H32 b _ Hb); [apply S0|]. intros x' L. rewrite <- S0. rewrite Py0. cbn [tv0 t_y]. rewrite Nnat.Nat2N.id. rewrite run_above; [apply B; lia|exact Sty|]. right. left. rewrite Px0 in L. cbn [tv0 t_x] in L. lia. }
    assert (B1 : forall x y, t_y t1 <= y -> read_cell (t_cell t1 x y) = [32%N]).
    { intros x y L. cbn [t1 go_to t_y t_cell] in *. rewrite run_above; [apply B; lia|exact Sty|left; lia]. }
    destruct (IH outs' fulls' HN' HO' HF' t1 tv1 eq_refl B1 S1) as (R1 & R2 & R3 & R4). cbv zeta in *. split; [exact R1|]. split; [rewrite R2; cbn [t1 go_to t_y]; lia|]. split.
    + replace (MoveTo 0 (N.of_nat (t_y t)) :: (o ++ b) ++ concat (rows_from (S (t_y t)) fulls')) with ((MoveTo 0 (N.of_nat (t_y t)) :: o ++ b) ++ concat (rows_from (S (t_y t)) fulls')) by reflexivity.
      rewrite term_run_app. fold tv1. replace (S (t_y t)) with (t_y t1) by (cbn; lia). exact R3.
    + intros x y L. rewrite R4 by (cbn [t1 go_to t_y]; lia). cbn [t1 go_to t_cell]. apply run_above; [exact Sty|]. lia.
Qed.

(** ** C102 *)

Lemma read_row_same t t' x y w : same_text t t' -> read_row t x y w = read_row t' x y w.
Proof. intros S. unfold read_row. apply flat_map_ext. intros i. apply S. Qed.
Lemma reads_line_same u k t t' p l x y w : same_text t t' -> reads_line u k t p l x y w -> reads_line u k t' p l x y w.
Proof.
  intros S. assert (R : forall x y w, read_row t x y w = read_row t' x y w) by (intros; apply read_row_same, S).
  assert (RB : forall x y w h, read_block t x y w h = read_block t' x y w h) by (intros; unfold read_block; apply flat_map_ext; intros; apply R).
  destruct l as [c|cells|als| |]; cbn [reads_line reads_source].
  - intros (parts & A & B & C & D). exists parts. split; [exact A|]. split; [exact B|]. split; [|exact D]. intros i part E. destruct (C i part E) as (a & b & F & G). exists a, b. rewrite <- R. auto.
  - intros (A & B & C & D). split; [exact A|]. split; [exact B|]. split; [intros; rewrite <- RB; auto|intros; rewrite <- R; auto].
  - intros (A & B & pos & C). split; [exact A|]. split; [exact B|]. exists pos. rewrite <- R. exact C.
  - rewrite R. auto.
  - rewrite R. auto.
Qed.
Lemma reads_line_screen u k r p l x y w : reads_line u k (r_paper r) p l x (r_top r + y) w -> reads_line u k (screen_of r) p l x y w.
Proof.
  assert (R : forall x y w, read_row (screen_of r) x y w = read_row (r_paper r) x (r_top r + y) w) by reflexivity.
  destruct l as [c|cells|als| |]; cbn [reads_line reads_source].
  - intros (parts & A & B & C & D). exists parts. split; [exact A|]. split; [exact B|]. split; [|exact D]. intros i part E. destruct (C i part E) as (a & b & F & G). exists a, b. rewrite R, Nat.add_assoc. auto.
  - intros (A & B & C & D). split; [exact A|]. split; [exact B|]. split.
    + intros j J. rewrite <- (C j J). unfold read_block. f_equal. rewrite !flat_map_concat_map. f_equal. apply map_ext. intros i. rewrite R. f_equal. lia.
    + intros j d J Dd. rewrite R, Nat.add_assoc. auto.
  - auto.
  - auto.
  - auto.
Qed.
Lemma roll_paper u w h : forall out r, r_paper (roll_run u w h r out) = paper_run u w (r_paper r) out.
Proof. induction out as [|c out IH]; intros r; [reflexivity|]. unfold roll_run, paper_run. cbn [fold_left]. apply IH. Qed.

Lemma paper_down u w : forall out t, Forall text_cmd out -> t_y t <= t_y (paper_run u w t out).
Proof.
  assert (St : forall p s t, t_y t <= t_y (paper_str u w t p s)).
  { intros p. induction s as [|c s IH]; intros t; [reflexivity|]. cbn [paper_str]. etransitivity; [|apply IH]. unfold paper_char. destruct (N.eqb c 10); [cbn; lia|]. destruct (_ <? _); cbn; lia. }
  induction out as [|c out IH]; intros t H; [reflexivity|]. inversion H as [|? ? Hc H']; subst. unfold paper_run. cbn [fold_left]. fold (paper_run u w (paper_step u w t c) out). etransitivity; [|apply IH, H'].
  destruct Hc as [(s & ->)|(cs & s & ->)]; cbn [paper_step with_pen t_y]; apply St.
Qed.
Lemma roll_top u w h : forall out r, Forall text_cmd out -> t_y (r_paper r) < r_top r + h -> r_top (roll_run u w h r out) = Nat.max (r_top r) (t_y (paper_run u w (r_paper r) out) + 1 - h).
Proof.
  induction out as [|c out IH]; intros r H L; [cbn; lia|]. inversion H as [|? ? Hc H']; subst. unfold roll_run, paper_run. cbn [fold_left]. fold (roll_run u w h (roll_step u w h r c) out) (paper_run u w (paper_step u w (r_paper r) c) out).
  rewrite IH by (try assumption; cbn; lia). cbn [roll_step r_top r_paper]. pose proof (@paper_down u w out (paper_step u w (r_paper r) c) H'). lia.
Qed.
Lemma one_of A B (R : A -> B -> Prop) l m i x y : Forall2 R l m -> nth_error l i = Some x -> nth_error m i = Some y -> R x y.
Proof. intros F. revert i. induction F as [|a b l m H F IH]; intros [|i] E1 E2; try discriminate; cbn in *; [congruence|eauto]. Qed.
(** A line which is printed has no newline *)
Lemma single_out k text l w r o : single_lines k text -> line_comes text l -> write_fmt_line no_special k l w r = Ret o -> ~ In 10%N (out_text o).
Proof.
  intros (K & T) C E N. pose proof (@line_origin no_special k text l w r o E C) as O. rewrite <- drawn_text in N. apply in_map_iff in N as ((c & cs) & Q & N). cbn [fst] in Q. subst c.
  rewrite Forall_forall in O. destruct (O _ N) as [(mc & f & ls & M & I & _)|[H|(c & r0 & X & _)]]; [| |discriminate X].
  - cbn [fst] in I. apply in_flat_map in I as (c & Ic & I). apply in_map_iff in I as (ch & Q & I). injection Q as -> _. exact (T mc c M Ic I).
  - apply K. unfold skin_chars. inversion H as [kind ls Hl Q|Q|Q|Q|c Hc Q]; cbn in *; tauto.
Qed.

(** All that is known of a printed text *)
Lemma printed_laid : forall u k um text size, usual u no_special k ->
  let w := N.to_nat (fst (terminal_size size)) in
  5 <= w -> Forall (area_source u k w) text -> is_white u 32%N = true -> single_lines k text ->
  exists t outs (gq : list (list FmtLine * (list nat * nat))), let ps := laids k w text gq in let out := printed_lines outs in
  term_text u k um text size = Ret t /\ from_text u k um text (Some w) = Ret t /\ print_text u no_special k um text size = Ret out
  /\ Forall2 (fun l o => write_fmt_line no_special k l (Some w) false = Ret o) (txt_lines t) outs /\ Forall (narrow_out u w) outs
  /\ txt_lines t = concat (map fst gq) /\ Forall2 (fun l gq => made u k w l (fst gq) (snd gq)) text gq /\ alike text (map snd gq)
  /\ length ps = length text /\ Forall (fun p => 1 <= l_rows p) ps /\ sum (map l_rows ps) = length (txt_lines t) /\ aligned text ps
  /\ forall tm, t_x tm = 0 -> blank_from tm (t_y tm) ->
     let tm' := paper_run u w tm out in
     t_x tm' = 0 /\ t_y tm' = t_y tm + length (txt_lines t) /\ (t_pen tm = pen0 -> t_pen tm' = pen0)
     /\ (forall x y, y < t_y tm \/ t_y tm' <= y \/ w <= x -> t_cell tm' x y = t_cell tm x y)
     /\ (forall w', w <= w' -> paper_run u w' tm out = tm')
     /\ forall i l p, nth_error text i = Some l -> nth_error ps i = Some p -> reads_line u k tm' p l 0 (t_y tm + sum (map l_rows (firstn i ps))) w.
Proof.
  intros u k um text size U w Hw T Wh SL. pose proof U as (Hk & Hu & H2 & Hn & Hs & Hb).
  assert (H32 : chw u 32%N = 1) by (narrow Hn).
  destruct (@source_formatted u k um text w Hk Hw T) as (t & Et & Hwt).
  assert (Ett : term_text u k um text size = Ret t) by (unfold term_text; unfold w in Et; destruct (terminal_size size); exact Et).
  assert (Hp : Forall (printable u k w) (txt_lines t)).
  { eapply text_printable; [exact Hu|exact Hw|exact Et|]. eapply Forall_impl; [|exact T]. intros l. apply source_fitting, H2. }
  assert (Gd := text_good_cells um Hw Et T). rewrite Forall_forall in Gd.
  destruct (@C69_displayed no_special k t) as (outs & HO & Ed); [intros l Hin; apply line_ret; [exact Hk|apply Gd, Hin]|]. rewrite Hwt in HO.
  assert (HF : exists fulls, Forall2 (fun l f => write_fmt_line no_special k l (Some w) true = Ret f) (txt_lines t) fulls).
  { clear - HO. induction HO as [|l o ls os E _ (fs & IH)]; [exists []; constructor|]. destruct (completed _ _ _ _ E) as (b & Eb & _). exists ((o ++ b) :: fs). constructor; assumption. }
  destruct HF as (fulls & HF).
  assert (LC : Forall (line_comes text) (txt_lines t)) by (eapply formatted_come; exact Et).
  assert (HN : Forall (narrow_out u w) outs).
  { clear - HO Hp Hn Hs LC SL. induction HO as [|l o ls os E _ IH]; [constructor|]. inversion Hp as [|? ? P1 P2]; subst. inversion LC as [|? ? C1 C2]; subst. constructor; [|auto]. split; [eapply sty_line; exact E|]. split; [eapply single_out; eassumption|].
    destruct (completed _ _ _ _ E) as (b & Eb & _). pose proof (printable_exact Hn Hs P1 Eb) as Q. rewrite printed_sumw in Q. unfold out_text in Q. rewrite flat_map_app in Q. fold (out_text o) (out_text b) in Q. rewrite sumw_app in Q. lia. }
  assert (FW : forall j f, nth_error fulls j = Some f -> Forall styled_cmd f /\ sumw (chw u) (out_text f) = w /\ exists l, nth_error (txt_lines t) j = Some l /\ line_drawn no_special k l (Some w) true (drawn f)).
  { intros j f Ej. assert (exists l, nth_error (txt_lines t) j = Some l) as (l & El).
    { destruct (nth_error (txt_lines t) j) eqn:Q; [eauto|]. apply nth_error_None in Q. assert (j < length fulls) by (apply nth_error_Some; congruence). rewrite (F2_length HF) in Q. lia. }
    pose proof (one_of _ HF El Ej) as E. cbv beta in E. split; [eapply sty_line; exact E|]. split; [|exists l; split; [exact El|apply line_spec, E]]. rewrite <- printed_sumw. rewrite Forall_forall in Hp. exact (printable_exact Hn Hs (Hp l (nth_error_In _ _ El)) E). }
  destruct (@text_made u k um w Hu H2 Hw _ text t (le_n _) T Et) as (gq & El & HM & HA).
  exists t, outs, gq. cbv zeta. split; [exact Ett|]. split; [exact Et|]. split; [unfold print_text; rewrite Ett, bind_ret; exact Ed|]. split; [exact HO|]. split; [exact HN|]. split; [exact El|]. split; [exact HM|]. split; [exact HA|]. destruct (@laids_rows u k w _ text gq HM) as (P1 & P2 & P3). split; [exact P1|]. split; [exact P3|].
  split; [rewrite P2, El, length_concat'; reflexivity|]. split; [apply laids_aligned, HA|]. intros tm X B. cbv zeta.
  assert (B' : forall x y, t_y tm <= y -> read_cell (t_cell tm x y) = [32%N]) by (intros x y L; destruct (B x y L) as (b & ->); reflexivity).
  destruct (@paper_rows u k w H32 _ _ _ HN HO HF tm tm X B' (fun x y => eq_refl)) as (R1 & R2 & R3 & R4). cbv zeta in *. rewrite <- (F2_length HO) in *. split; [exact R1|]. split; [exact R2|].
  split; [intros Pn; rewrite paper_pen, Pn; apply (@C80_text u no_special k um text size); unfold print_text; rewrite Ett, bind_ret; exact Ed|].
  split; [rewrite R2; exact R4|]. split; [intros w' Lw; symmetry; apply paper_larger; assumption|].
  intros i l p Hi Hp'. apply laids_nth in Hp' as (l' & g & q & E1 & E2 & ->). assert (l' = l) as -> by congruence. set (n := sum _).
  destruct (@line_at _ (map fst gq) i g) as (LB & EB); [rewrite nth_error_map, E2; reflexivity|]. rewrite EB in El.
  assert (En : n = length (concat (firstn i (map fst gq)))) by (unfold n; rewrite length_concat', <- firstn_map, P2, firstn_map; reflexivity).
  eapply reads_line_same; [intros x y; symmetry; apply R3|]. set (rows := rows_from (t_y tm) fulls).
  assert (Lr : length rows = length (txt_lines t)).
  { rewrite (F2_length HF). unfold rows. generalize (t_y tm). clear. induction fulls as [|f fs IH]; intros y; [reflexivity|]. cbn [rows_from length]. rewrite IH. reflexivity. }
  assert (Esc : screen u (t_x tm) (t_y tm) (concat rows) = concat (map (screen u 0 0) rows)).
  { apply screen_rows. apply Forall_forall. intros row Hin. apply In_nth_error in Hin as (j & Hj). apply rows_nth in Hj as (o & Ho & ->). eexists _, _, o. split; [reflexivity|]. apply styled_text_cmd, (FW j o Ho). }
  rewrite En, <- (Nat.sub_0_r (length _)). eapply (@one_read u k tm (concat rows) (map (screen u 0 0) rows) 0 (t_y tm) w w w 0 None (txt_lines t)); [exact Hn|exact Wh|exact Hb| |exact Esc| |reflexivity|exact El| |lia|lia|].
  - apply clean_concat, Forall_forall. intros row Hin. apply In_nth_error in Hin as (j & Hj). apply rows_nth in Hj as (o & Ho & ->). destruct (FW j o Ho) as (_ & _ & l0 & _). apply clean_cons; [apply clean_move|].
    assert (exists l1, nth_error (txt_lines t) j = Some l1) as (l1 & L1) by (destruct (FW j o Ho) as (_ & _ & l1 & L1 & _); eauto). eapply clean_line. exact (one_of _ HF L1 Ho).
  - intros j row Hj. rewrite nth_error_map in Hj. destruct (nth_error rows j) as [r|] eqn:Er; [|discriminate]. injection Hj as <-. apply rows_nth in Er as (o & Ho & ->). destruct (FW j o Ho) as (F1 & F2 & l0 & L0 & F3). cbn [screen]. rewrite Nnat.Nat2N.id. split.
    + pose proof (@screen_tiles u (t_y tm + j) _ (styled_text_cmd F1) 0) as Ht. rewrite F2 in Ht. exact Ht.
    + exists (drawn o), []. split; [rewrite screen_chars by exact F1; rewrite app_nil_r; reflexivity|]. cbn [Nat.add]. rewrite L0. split; [exact F3|reflexivity].
  - exact (one_of _ HM Hi E2).
  - rewrite map_length, Lr, El, !app_length. lia.
Qed.
(** A text printed from the start of a row, on a terminal of which nothing is written below. Each source line has its rows, one after the other, where it's read as this source line; the lines of a table have the same columns, the
    lines of a block of code the same left. The cursor is then at the start of the row after the text, with the default style, what was above isn't changed and a larger terminal shows the same. *)
Theorem C102_printed : forall u k um text size, usual u no_special k ->
  let w := N.to_nat (fst (terminal_size size)) in
  5 <= w -> Forall (area_source u k w) text -> is_white u 32%N = true -> single_lines k text ->
  exists t out ps, term_text u k um text size = Ret t /\ print_text u no_special k um text size = Ret out
  /\ length ps = length text /\ Forall (fun p => 1 <= l_rows p) ps /\ sum (map l_rows ps) = length (txt_lines t) /\ aligned text ps
  /\ forall tm, t_x tm = 0 -> blank_from tm (t_y tm) ->
     let tm' := paper_run u w tm out in
     t_x tm' = 0 /\ t_y tm' = t_y tm + length (txt_lines t) /\ (t_pen tm = pen0 -> t_pen tm' = pen0)
     /\ (forall x y, y < t_y tm \/ t_y tm' <= y \/ w <= x -> t_cell tm' x y = t_cell tm x y)
     /\ (forall w', w <= w' -> paper_run u w' tm out = tm')
     /\ forall i l p, nth_error text i = Some l -> nth_error ps i = Some p -> reads_line u k tm' p l 0 (t_y tm + sum (map l_rows (firstn i ps))) w.
Proof.
  intros u k um text size U w Hw T Wh SL. destruct (@printed_laid u k um text size U Hw T Wh SL) as (t & outs & gq & A1 & _ & A2 & _ & _ & _ & _ & _ & A3). eauto 10.
Qed.
Print Assumptions C102_printed.
(** On a screen of [h] rows, which scrolls: the first row of the screen is then the one which has the cursor on the last row, unless all was already on the screen. Each source line whose rows are still on the screen is read there. *)
Theorem C102_screen : forall u k um text size h, usual u no_special k ->
  let w := N.to_nat (fst (terminal_size size)) in
  5 <= w -> Forall (area_source u k w) text -> is_white u 32%N = true -> single_lines k text ->
  exists t out ps, term_text u k um text size = Ret t /\ print_text u no_special k um text size = Ret out
  /\ length ps = length text /\ Forall (fun p => 1 <= l_rows p) ps /\ sum (map l_rows ps) = length (txt_lines t) /\ aligned text ps
  /\ forall r, let y := t_y (r_paper r) in t_x (r_paper r) = 0 -> blank_from (r_paper r) y -> r_top r <= y < r_top r + h ->
     let r' := roll_run u w h r out in
     r_top r' = Nat.max (r_top r) (y + length (txt_lines t) + 1 - h)
     /\ t_x (screen_of r') = 0 /\ t_y (screen_of r') = y + length (txt_lines t) - r_top r' /\ t_y (screen_of r') < h
     /\ forall i l p, nth_error text i = Some l -> nth_error ps i = Some p ->
        let n := y + sum (map l_rows (firstn i ps)) in r_top r' <= n -> reads_line u k (screen_of r') p l 0 (n - r_top r') w.
Proof.
  intros u k um text size h U w Hw T Wh SL. destruct (@C102_printed u k um text size U Hw T Wh SL) as (t & out & ps & Et & Eo & A & B & C & D & H). exists t, out, ps. do 6 (split; [assumption|]).
  intros r y X Bl L r'. destruct (H (r_paper r) X Bl) as (H1 & H2 & _ & _ & _ & H6). cbv zeta in *. fold w in H1, H2, H6.
  assert (Tx : Forall text_cmd out).
  { destruct (@C69_displayed no_special k t) as (outs & HO & Ed).
    { assert (Hk : skin_ok k) by apply U. intros l Hin. apply line_ret; [exact Hk|]. unfold term_text in Et. unfold w in T, Hw. destruct (terminal_size size) as (ww & hh). pose proof (text_good_cells um Hw Et T) as G. rewrite Forall_forall in G. apply G, Hin. }
    unfold print_text in Eo. rewrite Et, bind_ret, Ed in Eo. injection Eo as <-. clear - HO. induction HO as [|l o ls os E _ IH]; [constructor|]. cbn [flat_map]. apply Forall_app. split; [|exact IH]. apply Forall_app. split; [eapply styled_text_cmd, sty_line; exact E|]. constructor; [left; eauto|constructor]. }
  assert (Et' : r_top r' = Nat.max (r_top r) (y + length (txt_lines t) + 1 - h)) by (unfold r'; rewrite roll_top; [rewrite H2; reflexivity|exact Tx|unfold y in L; lia]).
  assert (Er : r_paper r' = paper_run u w (r_paper r) out) by apply roll_paper.
  split; [exact Et'|]. unfold screen_of at 1 2 3. cbn [t_x t_y]. rewrite Er, H1, H2. split; [reflexivity|]. split; [reflexivity|]. split; [fold y; lia|].
  intros i l p Hi Hp Ln. apply reads_line_screen. rewrite Er, Nat.add_comm, Nat.sub_add by exact Ln. apply H6; assumption.
Qed.
Print Assumptions C102_screen.

(** ** Printed on the row 6 of a screen of 12 rows, after another text: this one has partly left the screen *)
Definition shell_roll : roll := mkRoll (mkTerm (fun _ y => if y <? 8 then Part 36%N 0 pen0 else Nothing Reset) 0 8 pen0) 2.
Example C102_example : usual demo no_special skin_default /\ Forall (area_source demo skin_default 17) whole_text /\ is_white demo 32%N = true /\ single_lines skin_default whole_text
  /\ blank_from (r_paper shell_roll) 8
  /\ exists out, print_text demo no_special skin_default 1000 whole_text (Some (17, 12)%N) = Ret out
  /\ let r := roll_run demo 17 12 shell_roll out in r_top r = 7 /\ t_x (screen_of r) = 0 /\ t_y (screen_of r) = 11
  /\ map (fun y => visible demo (read_row (screen_of r) 0 y 17)) (seq 0 12)
    = [repeat 36%N 17; 9616%N :: letters 9; 9616%N :: letters 9; [98; 98]%N; [99]%N; repeat 8213%N 17; [9474; 97; 9474; 98; 98; 9474]%N; (9474 :: letters 4 ++ [9474; 9474])%N;
       8226%N :: letters 9; letters 9; (9474 :: repeat 99 5 ++ [9474])%N; []].
Proof.
  split; [exact demo_usual|]. split; [exact whole_source|]. split; [reflexivity|]. split.
  { split; [vm_compute; intros H; repeat destruct H as [H|H]; discriminate || contradiction|]. intros mc c M C. vm_compute in M.
    repeat destruct M as [<-|M]; try contradiction; cbn in C; repeat destruct C as [<-|C]; try contradiction; vm_compute; intros H; repeat destruct H as [H|H]; discriminate || contradiction. }
  split; [intros x y L; exists Reset; cbn [shell_roll r_paper t_cell]; rewrite (proj2 (Nat.ltb_ge _ _)) by exact L; reflexivity|].
  eexists. split; [vm_compute; reflexivity|]. cbv zeta. repeat (split; [vm_compute; reflexivity|]). vm_compute. reflexivity.
Qed.
