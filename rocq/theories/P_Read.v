(** * What is read on the terminal is the text (C95) *)
From Verif Require Import Base L_Base M_Style M_Fit M_Wrap M_TblFit S_Wrap M_Text S_Text M_Fitter M_View S_View M_Render S_Render M_Area S_Input S_Pen S_Area S_Paint S_Read L_Clean Demo.
From Verif Require Import P_Wrap P_Text P_Render P_Local S_Local P_Area P_Paint.
Set Implicit Arguments.
Open Scope nat_scope.

(** ** Reading spots *)

Lemma mark_iff u x y s : mark_at u x y s = true <-> covers u s x y.
Proof. unfold mark_at, covers. rewrite !andb_true_iff, Nat.eqb_eq, Nat.leb_le, Nat.ltb_lt. intuition congruence. Qed.
Definition read_mark (u : unicode) (l : list (spot * pen)) (x y : nat) : str := match last_mark u x y l with Some v => read_cell v | None => [32%N] end.
Lemma tiles_from u y : forall row from to, tiles u y from row to -> from <= to.
Proof. induction row as [|s r IH]; intros from to H; cbn [tiles] in H; [lia|]. destruct H as (_ & _ & H). apply IH in H. lia. Qed.
Definition seen_chars (u : unicode) (s : str) : str := filter (fun c => 0 <? chw u c) s.
Lemma read_tiles u y : forall l from to, tiles u y from (map fst l) to ->
  flat_map (fun x => read_mark u l x y) (seq from (to - from)) = seen_chars u (map s_char (map fst l)).
Proof.
  induction l as [|(s & p) r IH]; intros from to H; cbn [map fst tiles] in H; [subst to; rewrite Nat.sub_diag; reflexivity|]. destruct H as (H1 & H2 & H3).
  pose proof (@tiles_from _ _ _ _ _ H3) as L. set (n := chw u (s_char s)) in *. replace (to - from) with (n + (to - (from + n))) by lia. rewrite seq_app, flat_map_app.
  cbn [map fst seen_chars filter]. fold n.
  assert (R2 : flat_map (fun x => read_mark u ((s, p) :: r) x y) (seq (from + n) (to - (from + n))) = seen_chars u (map s_char (map fst r))).
  { rewrite <- (IH _ _ H3). rewrite !flat_map_concat_map. f_equal. apply map_ext_in. intros x I. apply in_seq in I. unfold read_mark. cbn [last_mark]. destruct (last_mark u x y r); [reflexivity|].
    destruct (mark_at u x y s) eqn:E; [|reflexivity]. apply mark_iff in E. destruct E as (_ & E). fold n in E. lia. }
  rewrite R2. assert (R1 : flat_map (fun x => read_mark u ((s, p) :: r) x y) (seq from n) = if 0 <? n then [s_char s] else []).
  { assert (E : forall x, from <= x < from + n -> read_mark u ((s, p) :: r) x y = if x =? from then [s_char s] else []).
    { intros x B. unfold read_mark. cbn [last_mark]. replace (last_mark u x y r) with (@None seen).
      - replace (mark_at u x y s) with true by (symmetry; apply mark_iff; split; [exact H1|fold n; lia]). rewrite H2. cbn [read_cell]. destruct (Nat.eqb_spec x from) as [->|D]; [rewrite Nat.sub_diag; reflexivity|].
        replace (x - from) with (S (x - from - 1)) by lia. reflexivity.
      - symmetry. apply last_mark_none. intros X. apply (@tiles_cover u y _ _ _ H3 x y) in X. lia. }
    clear - E. destruct n as [|n]; [reflexivity|]. cbn [seq flat_map Nat.ltb]. rewrite E by lia. rewrite Nat.eqb_refl. change (0 <? S n) with true. cbn [app]. f_equal.
    rewrite flat_map_concat_map. replace (map _ _) with (map (fun _ : nat => @nil char) (seq (S from) n)).
    - generalize (seq (S from) n). induction l as [|a l IH]; [reflexivity|exact IH].
    - apply map_ext_in. intros x I. apply in_seq in I. rewrite E by lia. rewrite (proj2 (Nat.eqb_neq x from)) by lia. reflexivity. }
  rewrite R1. destruct (0 <? n); reflexivity.
Qed.
(** the marks of other rows don't count *)
Lemma read_concat u y w x0 : forall rows j row, nth_error rows j = Some row ->
  (forall i r, nth_error rows i = Some r -> exists from to, tiles u (y + i) from (map fst r) to) ->
  (forall x, x0 <= x < x0 + w -> exists s, In s (map fst row) /\ covers u s x (y + j)) ->
  forall x, x0 <= x < x0 + w -> last_mark u x (y + j) (concat rows) = last_mark u x (y + j) row.
Proof.
  intros rows. revert y. induction rows as [|r rows IH]; intros y j row E T C x B; [destruct j; discriminate E|]. cbn [concat]. rewrite last_mark_app.
  assert (N : forall q i, nth_error rows i = Some q -> i <> j - 1 \/ j = 0 -> last_mark u x (y + j) q = None).
  { intros q i Q D. apply last_mark_none. intros X. destruct (T (S i) q Q) as (from & to & Tl). apply (@tiles_cover u _ _ _ _ Tl x (y + j)) in X. lia. }
  destruct j as [|j]; cbn [nth_error] in E.
  - injection E as ->. replace (last_mark u x (y + 0) (concat rows)) with (@None seen); [reflexivity|]. symmetry. apply last_mark_none. rewrite concat_map. intros (s & I & V).
    apply in_concat in I as (q & Iq & Is). apply in_map_iff in Iq as (q' & <- & Iq). apply In_nth_error in Iq as (i & Ei).
    destruct (T (S i) q' Ei) as (from & to & Tl). assert (X : exists s, In s (map fst q') /\ covers u s x (y + 0)) by eauto. apply (@tiles_cover u _ _ _ _ Tl x _) in X. lia.
  - replace (y + S j) with (S y + j) by lia. rewrite (IH (S y) j row E) with (x := x).
    + destruct (last_mark u x (S y + j) row) eqn:L; [reflexivity|]. apply last_mark_none in L. exfalso. apply L. replace (S y + j) with (y + S j) by lia. apply C, B.
    + intros i q Q. destruct (T (S i) q Q) as (from & to & Tl). exists from, to. replace (S y + i) with (y + S i) by lia. exact Tl.
    + intros x' B'. replace (S y + j) with (y + S j) by lia. apply C, B'.
    + exact B.
Qed.
Lemma split_map {A B} (f : A -> B) : forall rows l, map f l = concat rows -> exists ls, concat ls = l /\ map (map f) ls = rows.
Proof.
  induction rows as [|r rows IH]; intros l H; cbn [concat] in H; [exists []; split; [symmetry; exact (map_eq_nil _ _ H)|reflexivity]|].
  apply map_eq_app in H as (a & b & -> & <- & H). destruct (IH b H) as (ls & <- & <-). exists (a :: ls). split; reflexivity.
Qed.
(** What is read on a row of the area, when the spots are the tiles of its rows *)
Lemma read_drawn u out t x0 y0 w rows : clean out -> screen u (t_x t) (t_y t) out = concat rows ->
  (forall j row, nth_error rows j = Some row -> tiles u (y0 + j) x0 row (x0 + w)) ->
  forall j row, nth_error rows j = Some row -> read_row (term_run u t out) x0 (y0 + j) w = seen_chars u (map s_char row).
Proof.
  intros C E T j row R. rewrite <- (marks_spots u out (t_x t) (t_y t) (t_pen t)) in E. destruct (split_map _ _ _ E) as (ms & Em & <-). rewrite nth_error_map in R.
  destruct (nth_error ms j) as [m|] eqn:M; [|discriminate R]. injection R as <-.
  assert (T' : forall i r, nth_error ms i = Some r -> tiles u (y0 + i) x0 (map fst r) (x0 + w)) by (intros i r I; apply T; rewrite nth_error_map, I; reflexivity).
  pose proof (T' j m M) as Tm. rewrite <- (@read_tiles _ _ _ _ _ Tm). replace (x0 + w - x0) with w by lia. unfold read_row. rewrite !flat_map_concat_map. f_equal. apply map_ext_in. intros x I. apply in_seq in I.
  rewrite run_cells by exact C. rewrite <- Em. unfold read_mark.
  assert (K : forall x, x0 <= x < x0 + w -> exists s, In s (map fst m) /\ covers u s x (y0 + j)) by (intros x' B; apply (@tiles_cover u _ _ _ _ Tm); lia).
  rewrite (@read_concat u y0 w x0 ms j m M) with (x := x); [|intros i r Q; eauto|exact K|lia].
  destruct (last_mark u x (y0 + j) m) eqn:L; [reflexivity|]. apply last_mark_none in L. exfalso. apply L, K. lia.
Qed.

(** ** Reading lines *)

Lemma visible_app u a b : visible u (a ++ b) = visible u a ++ visible u b.
Proof. apply filter_app. Qed.
Lemma visible_seen u s : visible u (seen_chars u s) = visible u s.
Proof. unfold visible, seen_chars. induction s as [|c s IH]; [reflexivity|]. cbn [filter]. destruct (0 <? chw u c) eqn:E; cbn [filter]; rewrite ?E, IH; [reflexivity|]. rewrite andb_false_r. reflexivity. Qed.
Lemma visible_blanks u cs n : is_white u 32%N = true -> visible u (map fst (blanks cs n)) = [].
Proof. intros W. unfold blanks, visible. induction n as [|n IH]; [reflexivity|]. cbn [repeat map fst filter]. rewrite W. exact IH. Qed.
Lemma line_read u k l w d : is_white u 32%N = true -> not_table l -> line_drawn no_special k l (Some w) true d -> visible u (map fst d) = line_seen u k w l.
Proof.
  intros W NT H. destruct l as [fc|cells|r|]; try contradiction NT; cbn [line_drawn line_seen] in *.
  - destruct H as (ls & lm & rm & lp & rp & li & ri & _ & _ & _ & _ & ->). rewrite !map_app, !visible_app. rewrite !visible_blanks by exact W. cbn [app]. rewrite app_nil_r. f_equal.
    + unfold mark_drawn. destruct (fc_kind fc); try reflexivity.
      * rewrite !map_app, !visible_app, !visible_blanks by exact W. cbn [app]. rewrite app_nil_r. reflexivity.
      * destruct (indent_mode k); [reflexivity|apply visible_blanks, W].
      * rewrite !map_app, !visible_app, !visible_blanks by exact W. rewrite app_nil_r. reflexivity.
    + f_equal. induction (fc_compounds fc) as [|c cs IH]; [reflexivity|]. cbn [flat_map text_of]. rewrite map_app. unfold compound_drawn at 1. cbn [no_special]. unfold text_of in IH. rewrite IH, map_map. cbn [fst]. rewrite map_id. reflexivity.
  - subst d. f_equal. clear. induction w as [|w IH]; [reflexivity|]. cbn [repeat map fst]. rewrite IH. reflexivity.
Qed.
Lemma visible_styled u cs : visible u (text_of cs) = seen_chars u (map fst (filter (fun c => negb (is_white u (fst c))) (S_Wrap.styled cs))).
Proof.
  replace (text_of cs) with (map fst (S_Wrap.styled cs)).
  - generalize (S_Wrap.styled cs). induction l as [|c l IH]; [reflexivity|]. cbn [map visible filter]. unfold visible in IH. destruct (is_white u (fst c)); cbn [negb andb]; [exact IH|].
    cbn [map seen_chars filter]. unfold seen_chars in IH. rewrite IH. reflexivity.
  - unfold S_Wrap.styled, text_of. induction cs as [|c cs IH]; [reflexivity|]. cbn [flat_map]. rewrite map_app, IH, map_map. cbn [fst]. rewrite map_id. reflexivity.
Qed.
Lemma flat_visible u (ls : list FmtComposite) : flat_map (fun l => visible u (text_of (fc_compounds l))) ls
  = seen_chars u (map fst (filter (fun c => negb (is_white u (fst c))) (flat_map (fun l => S_Wrap.styled (fc_compounds l)) ls))).
Proof.
  induction ls as [|l ls IH]; [reflexivity|]. cbn [flat_map]. rewrite filter_app, map_app. unfold seen_chars in *. rewrite filter_app, <- IH. f_equal. apply visible_styled.
Qed.
(** The lines of a readable line *)
Lemma line_formatted u k um w w' l ls width : is_white u 32%N = true -> readable_line l -> from_text u k um [l] (Some w) = Ret (mkText ls width) ->
  Forall not_table ls /\ flat_map (line_seen u k w') ls = to_read u k w' l.
Proof.
  intros W R E. destruct l as [c|cells|als| |]; try contradiction R; unfold from_text in E; cbn [map line_from] in E.
  2,3: (replace (fix_all_tables u k [HorizontalRule] w) with (Ret [HorizontalRule]) in E by reflexivity); cbn [bind justify_blocks] in E; change (justify_blocks [HorizontalRule]) with [HorizontalRule] in E;
    cbn [hard_wrap_lines bind option_map] in E; (destruct (3 <=? w); injection E as <- _); (split; [repeat constructor|cbn [flat_map line_seen]; apply app_nil_r]).
  set (fc := fc_from u k c) in *. assert (K : fc_kind fc = kind_of (mc_style c) /\ fc_compounds fc = mc_compounds c) by (split; reflexivity). destruct K as (K & Cs).
  replace (fix_all_tables u k [Normal fc] w) with (Ret [Normal fc]) in E by reflexivity. cbn [bind] in E.
  assert (J : justify_blocks [Normal fc] = [Normal fc]).
  { cbn [readable_line] in R. destruct (kind_of (mc_style c)) eqn:Kc; try contradiction R; (assert (CL : code_line_length (Normal fc) = None) by (unfold code_line_length; rewrite K; reflexivity)); unfold justify_blocks, find_blocks; cbn [find_runs]; rewrite CL; reflexivity. }
  rewrite J in E. cbn [to_read]. rewrite visible_app, <- K, <- Cs. clear J.
  assert (One : Forall not_table [Normal fc] /\ flat_map (line_seen u k w') [Normal fc]
     = visible u match fc_kind fc with KListItem _ => [snd (sc_cache (bullet k))] | _ => [] end ++ visible u (text_of (fc_compounds fc))).
  { split; [repeat constructor|]. cbn [flat_map line_seen]. rewrite app_nil_r, visible_app. f_equal. cbn [readable_line] in R. rewrite K. destruct (kind_of (mc_style c)); try contradiction R; reflexivity. }
  destruct (3 <=? w); [|injection E as <- _; exact One]. cbn [hard_wrap_lines] in E. inv1 E. inv1 E0. destruct (margins_in x0 (Some w)) as (lm & rm).
  destruct (_ <=? _) in E0; [cbn [bind option_map] in E0; injection E0 as <-; injection E as <- _; exact One|]. clear One.
  inv1 E0. inv1 E0. inv1 E0. destruct x3 as [fcs|]; [|injection E0 as <-; discriminate E]. cbn [bind option_map] in E0. injection E0 as <-. rewrite app_nil_r in E. injection E as <- _.
  split; [apply Forall_forall; intros l I; apply in_map_iff in I as (f & <- & _); exact I|].
  destruct (@C25_kinds _ _ _ _ _ E4) as (first & others & -> & K1 & K2 & _). pose proof (@C24_non_blank_kept _ _ _ _ _ E4) as NB. apply (f_equal (fun l => seen_chars u (map fst l))) in NB.
  rewrite <- flat_visible, <- visible_styled in NB. rewrite <- NB. cbn [map flat_map line_seen]. rewrite visible_app, <- app_assoc. rewrite K1. f_equal.
  { cbn [readable_line] in R. rewrite K. destruct (kind_of (mc_style c)); try contradiction R; reflexivity. }
  f_equal. clear - K2 R K W. induction K2 as [|f l Kf _ IH]; [reflexivity|]. cbn [map flat_map line_seen]. rewrite IH, Kf, visible_app. f_equal.
  cbn [readable_line] in R. rewrite K. destruct (kind_of (mc_style c)); try contradiction R; reflexivity.
Qed.
(** ** C95 *)

(** All what can be seen in the source of paragraphs, titles, list items and rules is in the lines made for a width, in order, and nothing else *)
Theorem C95_lines : forall u k um text w w' t, is_white u 32%N = true -> Forall readable_line text -> from_text u k um text (Some w) = Ret t ->
  Forall not_table (txt_lines t) /\ flat_map (line_seen u k w') (txt_lines t) = flat_map (to_read u k w') text.
Proof.
  intros u k um text w w' t W R E. apply C83_each_line in E.
  - destruct E as (ls & F & ->). cbn [txt_lines]. revert R. induction F as [|l x text ls L F IH]; intros R; [split; [constructor|reflexivity]|]. inversion R as [|? ? R1 R2]; subst. cbn [concat flat_map].
    destruct (@line_formatted u k um w w' l x _ W R1 L) as (A & B). destruct (IH R2) as (A' & B'). split; [apply Forall_app; auto|]. rewrite flat_map_app, B, B'. reflexivity.
  - eapply Forall_impl; [|exact R]. intros l0 R0; destruct l0 as [c|cells|als| |]; try contradiction R0; cbn [readable_line of_table of_code] in *; auto. split; [reflexivity|]. destruct (mc_style c); try reflexivity; contradiction R0.
Qed.
(** What is read on any row of an area where a text was drawn, on any terminal: what can be seen of the line *)
Theorem C95_rows : forall u k um text a, usual u no_special k ->
  (6 <= a_width a)%N -> on_screen a -> margins_not_just k (N.to_nat (a_width a)) ->
  Forall (area_source u k (N.to_nat (a_width a) - 1)) text -> is_white u 32%N = true -> Forall readable_line text ->
  exists t out, area_text u k um text a = Ret t /\ write_in_area_on u no_special k um text a = Ret out
  /\ forall tm j, j < N.to_nat (a_height a) ->
     visible u (read_row (term_run u tm out) (N.to_nat (a_left a)) (N.to_nat (a_top a) + j) (N.to_nat (a_width a)))
     = match nth_error (txt_lines t) j with Some l => line_seen u k (N.to_nat (a_width a)) l | None => [] end.
Proof.
  intros u k um text a U W S M T Wh R. destruct (@C76_area_partial u no_special k um text a U W S M T) as (t & out & Et & E & F). exists t, out. split; [exact Et|]. split; [exact E|].
  intros tm j J. destruct (F (t_x tm) (t_y tm)) as (_ & rows & Er & L & H). destruct (nth_error rows j) as [row|] eqn:Ej; [|apply nth_error_None in Ej; lia].
  rewrite (@read_drawn u out tm (N.to_nat (a_left a)) (N.to_nat (a_top a)) (N.to_nat (a_width a)) rows) with (row := row); [|eapply clean_area; left; exact E|exact Er|intros i r I; apply (H i r I)|exact Ej].
  rewrite visible_seen. destruct (H j row Ej) as (_ & d & bar & Ed & Dl & ->). rewrite app_nil_r in Ed. assert (Ec : map s_char row = map fst d).
  { apply (f_equal (map fst)) in Ed. unfold row_chars, with_style in Ed. rewrite !map_map in Ed. cbn [fst] in Ed. exact Ed. }
  rewrite Ec. cbn [Nat.add] in Dl. destruct (nth_error (txt_lines t) j) as [l|] eqn:El; [|subst d; apply visible_blanks, Wh].
  apply line_read; [exact Wh| |exact Dl]. assert (NT : Forall not_table (txt_lines t)).
  { unfold area_text in Et. inv1 Et. eapply (@C95_lines u k um text _ 0); eassumption. }
  rewrite Forall_forall in NT. apply NT. eapply nth_error_In. exact El.
Qed.
Lemma visible_concat u l : visible u (concat l) = flat_map (visible u) l.
Proof. induction l as [|x l IH]; [reflexivity|]. cbn [concat flat_map]. rewrite visible_app, IH. reflexivity. Qed.
(** The whole of the text, in order, when the area is high enough *)
Theorem C95_area : forall u k um text a, usual u no_special k ->
  (6 <= a_width a)%N -> on_screen a -> margins_not_just k (N.to_nat (a_width a)) ->
  Forall (area_source u k (N.to_nat (a_width a) - 1)) text -> is_white u 32%N = true -> Forall readable_line text ->
  exists t out, area_text u k um text a = Ret t /\ write_in_area_on u no_special k um text a = Ret out
  /\ (length (txt_lines t) <= N.to_nat (a_height a) -> forall tm,
      visible u (concat (read_area (term_run u tm out) a)) = flat_map (to_read u k (N.to_nat (a_width a))) text).
Proof.
  intros u k um text a U W S M T Wh R. destruct (@C95_rows u k um text a U W S M T Wh R) as (t & out & Et & E & H). exists t, out. split; [exact Et|]. split; [exact E|].
  intros L tm. unfold area_text in Et. inv1 Et. destruct (@C95_lines u k um text _ (N.to_nat (a_width a)) t Wh R Et) as (_ & <-).
  rewrite visible_concat. unfold read_area. rewrite flat_map_concat_map, map_map.
  assert (A : forall h ls, length ls <= h -> concat (map (fun j => match nth_error ls j with Some l => line_seen u k (N.to_nat (a_width a)) l | None => [] end) (seq 0 h)) = flat_map (line_seen u k (N.to_nat (a_width a))) ls).
  { clear. induction h as [|h IH]; intros [|l ls] L; cbn [length] in L; try lia; [reflexivity| |].
    - cbn [seq map concat nth_error]. rewrite <- seq_shift, map_map. cbn [nth_error]. rewrite <- (IH [] (Nat.le_0_l _)). cbn [app]. f_equal. apply map_ext. intros [|j]; reflexivity.
    - cbn [seq map concat nth_error flat_map]. rewrite <- seq_shift, map_map. cbn [nth_error]. rewrite IH by lia. reflexivity. }
  assert (Q : forall h top i, map (fun j => visible u (read_row (term_run u tm out) (N.to_nat (a_left a)) j (N.to_nat (a_width a)))) (seq (top + i) h)
     = map (fun j => visible u (read_row (term_run u tm out) (N.to_nat (a_left a)) (top + j) (N.to_nat (a_width a)))) (seq i h)).
  { induction h as [|h IH]; intros top i; [reflexivity|]. cbn [seq map]. f_equal. rewrite <- IH. f_equal. f_equal. lia. }
  rewrite <- (A _ _ L). f_equal. specialize (Q (N.to_nat (a_height a)) (N.to_nat (a_top a)) 0). rewrite Nat.add_0_r in Q. rewrite Q. apply map_ext_in. intros j I. apply in_seq in I. apply H. lia.
Qed.
(** In a scrollable view: the line [s + j] on the row [j], followed by a char of the scrollbar if the text is higher than the area. So each line can be read
    with any scroll showing it, and [C95_lines] tells that the lines are the whole text. *)
Theorem C95_view : forall u k um text a s, usual u no_special k ->
  (6 <= a_width a)%N -> (1 <= a_height a)%N -> on_screen a -> margins_not_just k (N.to_nat (a_width a)) ->
  Forall (area_source u k (N.to_nat (a_width a) - 1)) text -> is_white u 32%N = true -> Forall readable_line text ->
  exists t, area_text u k um text a = Ret t
  /\ (length (txt_lines t) < N.to_nat 65536 -> N.to_nat s <= length (txt_lines t) - N.to_nat (a_height a) ->
  exists out, mad_write_on u no_special k um text a s = Ret out
  /\ forall tm j, j < N.to_nat (a_height a) -> exists bar w,
     visible u (read_row (term_run u tm out) (N.to_nat (a_left a)) (N.to_nat (a_top a) + j) (N.to_nat (a_width a)))
     = match nth_error (txt_lines t) (N.to_nat s + j) with Some l => line_seen u k w l | None => [] end ++ visible u bar
     /\ (length (txt_lines t) <= N.to_nat (a_height a) -> bar = [] /\ w = N.to_nat (a_width a))
     /\ (N.to_nat (a_height a) < length (txt_lines t) -> In bar [[fst (drawn_char (thumb (scrollbar k)))]; [fst (drawn_char (track (scrollbar k)))]] /\ w = N.to_nat (a_width a) - 1)).
Proof.
  intros u k um text a s U W Hh S M T Wh R. destruct (@C76_view_partial u no_special k um text a s U W Hh S M T) as (t & Et & V). exists t. split; [exact Et|].
  intros L1 L2. destruct (V L1 L2) as (out & sb & E & Hsb & F). exists out. split; [exact E|].
  intros tm j J. destruct (F (t_x tm) (t_y tm)) as (_ & rows & Er & L & H). destruct (nth_error rows j) as [row|] eqn:Ej; [|apply nth_error_None in Ej; lia].
  rewrite (@read_drawn u out tm (N.to_nat (a_left a)) (N.to_nat (a_top a)) (N.to_nat (a_width a)) rows) with (row := row); [|eapply clean_area; right; eexists; exact E|exact Er|intros i r I; apply (H i r I)|exact Ej].
  rewrite visible_seen. destruct (H j row Ej) as (_ & d & bar & Ed & Dl & B). assert (Ec : map s_char row = map fst d ++ map fst bar).
  { apply (f_equal (map fst)) in Ed. unfold row_chars, with_style in Ed. rewrite !map_map in Ed. cbn [fst] in Ed. rewrite map_app in Ed. exact Ed. }
  exists (map fst bar). exists (match sb with None => N.to_nat (a_width a) | Some _ => N.to_nat (a_width a) - 1 end). rewrite Ec, visible_app. split.
  - f_equal. destruct (nth_error (txt_lines t) (N.to_nat s + j)) as [l|] eqn:El; [|subst d; apply visible_blanks, Wh].
    apply line_read; [exact Wh| |exact Dl]. assert (NT : Forall not_table (txt_lines t)).
    { unfold area_text in Et. inv1 Et. eapply (@C95_lines u k um text _ 0); eassumption. }
    rewrite Forall_forall in NT. apply NT. eapply nth_error_In. exact El.
  - split; intros K.
    + destruct sb as [sb|]; [exfalso; assert (N.to_nat (a_height a) < length (txt_lines t)) by (apply Hsb; discriminate); lia|]. rewrite B. auto.
    + destruct sb as [[x y]|]; [|exfalso; apply (proj2 Hsb K); reflexivity]. cbv zeta in B. split; [|reflexivity]. destruct B as (B1 & B2).
      destruct ((x <=? N.of_nat (N.to_nat (a_top a) + j)) && (N.of_nat (N.to_nat (a_top a) + j) <=? y))%N eqn:Q.
      * rewrite B1; [left; reflexivity|]. apply andb_prop in Q as (Q1 & Q2). lia.
      * rewrite B2; [right; left; reflexivity|]. intros (Q1 & Q2). apply andb_false_iff in Q as [Q|Q]; lia.
Qed.
Print Assumptions C95_lines.
Print Assumptions C95_rows.
Print Assumptions C95_area.
Print Assumptions C95_view.

(** ** A title, a paragraph of two words which is wrapped, an item, a rule, in an area of 15 columns *)
Definition some_text : list MLine :=
  [MNormal (mkMC (MHeader 2) [plain (letters 3)]); MNormal (mkMC MParagraph [plain (repeat 98%N 9 ++ [32%N] ++ repeat 99%N 9)]);
   MNormal (mkMC (MListItem 1) [plain (repeat 100%N 20)]); MHorizontalRule].
Lemma some_text_source : Forall (area_source demo skin_default 14) some_text.
Proof.
  assert (HN : forall c, drawn_kind (kind_of (mc_style c)) -> lead skin_default (kind_of (mc_style c)) + 2 <= 14 ->
    (kind_of (mc_style c) = KCode -> sumw (chw demo) (text_of (mc_compounds c)) <= 14) -> area_source demo skin_default 14 (MNormal c)).
  { intros c H0 H1 H2. split; [exact H0|]. intros lm rm (ls & El & Em). destruct (default_margins _ El) as [E1 E2].
    unfold margins_in in Em. rewrite E1, E2 in Em. cbn in Em. injection Em as <- <-. split; [lia|]. intros H. specialize (H2 H). lia. }
  unfold some_text. repeat (apply Forall_cons; [|]); try apply Forall_nil.
  all: first [apply HN; [split; [discriminate|cbn; try exact I; lia]|cbn; lia|discriminate] | exact I].
Qed.
Definition shown_text : str := repeat 97%N 3 ++ repeat 98%N 9 ++ repeat 99%N 9 ++ [8226%N] ++ repeat 100%N 20 ++ repeat 8213%N 15.
Example C95_example : usual demo no_special skin_default /\ margins_not_just skin_default 15 /\ Forall (area_source demo skin_default 14) some_text
  /\ is_white demo 32%N = true /\ Forall readable_line some_text /\ on_screen (mkArea 3 2 15 9)
  /\ flat_map (to_read demo skin_default 15) some_text = shown_text
  /\ exists out, write_in_area_on demo no_special skin_default 1000 some_text (mkArea 3 2 15 9) = Ret out
  /\ visible demo (concat (read_area (term_run demo full_term out) (mkArea 3 2 15 9))) = shown_text
  /\ map (visible demo) (read_area (term_run demo full_term out) (mkArea 3 2 15 9))
     = [repeat 97%N 3; repeat 98%N 9; repeat 99%N 9; 8226%N :: repeat 100%N 11; repeat 100%N 9; repeat 8213%N 15; []; []; []].
Proof.
  split; [exact demo_usual|]. split; [intros kind ls El; destruct (default_margins _ El) as [-> ->]; discriminate|]. split; [exact some_text_source|].
  split; [reflexivity|]. split; [repeat constructor|]. split; [split; reflexivity|]. split; [vm_compute; reflexivity|].
  eexists. split; [vm_compute; reflexivity|]. split; vm_compute; reflexivity.
Qed.
(** The same text in a view of 3 rows, after a scroll by 2 *)
Example C95_view_example : exists out, mad_write_on demo no_special skin_default 1000 some_text (mkArea 3 2 15 3) 2 = Ret out
  /\ map (visible demo) (read_area (term_run demo full_term out) (mkArea 3 2 15 3)) = [repeat 99%N 9 ++ [9616%N]; 8226%N :: repeat 100%N 11 ++ [9616%N]; repeat 100%N 9 ++ [9616%N]].
Proof. eexists. split; [vm_compute; reflexivity|]. vm_compute. reflexivity. Qed.
