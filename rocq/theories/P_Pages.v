(** * A text read page by page is the text (C98) *)
From Verif Require Import Base L_Base M_Style M_Fit M_Wrap M_TblFit S_Wrap M_Text S_Text M_Fitter M_View S_View M_Render S_Render M_Area S_Input S_Pen S_Area S_Paint S_Read S_Pages L_Clean Demo.
From Verif Require Import P_Wrap P_Text P_Render P_Local S_Local P_View P_Area P_Paint P_Read P_Pen.
Set Implicit Arguments.
Open Scope nat_scope.

(** ** Reading the left part of a row *)

Lemma tiles_split u y : forall a b x0 x1, tiles u y x0 (a ++ b) x1 -> exists m, tiles u y x0 a m /\ tiles u y m b x1.
Proof.
  induction a as [|s a IH]; intros b x0 x1 H; cbn [app tiles] in *; [eauto|]. destruct H as (H1 & H2 & H3). destruct (IH _ _ _ H3) as (m & A & B). exists m. auto.
Qed.
Lemma read_left u out t x0 y0 w rows : clean out -> screen u (t_x t) (t_y t) out = concat rows ->
  (forall j row, nth_error rows j = Some row -> tiles u (y0 + j) x0 row (x0 + w)) ->
  forall j a b w1, nth_error rows j = Some (a ++ b) -> tiles u (y0 + j) x0 a (x0 + w1) -> read_row (term_run u t out) x0 (y0 + j) w1 = seen_chars u (map s_char a).
Proof.
  intros C E T j a b w1 R Ta. rewrite <- (marks_spots u out (t_x t) (t_y t) (t_pen t)) in E. destruct (split_map _ _ _ E) as (ms & Em & <-). rewrite nth_error_map in R.
  destruct (nth_error ms j) as [m|] eqn:M; [|discriminate R]. injection R as R. apply map_eq_app in R as (ma & mb & -> & <- & <-).
  assert (T' : forall i r, nth_error ms i = Some r -> tiles u (y0 + i) x0 (map fst r) (x0 + w)) by (intros i r I; apply T; rewrite nth_error_map, I; reflexivity).
  pose proof (T' j _ M) as Tm. rewrite map_app in Tm. destruct (@tiles_split _ _ _ _ _ _ Tm) as (m & Tm1 & Tm2).
  assert (m = x0 + w1).
  { clear - Ta Tm1. revert Ta Tm1. generalize (x0 + w1). intros q. revert x0. induction (map fst ma) as [|s r IH]; intros x0 A B; cbn [tiles] in *; [congruence|]. destruct A as (_ & _ & A), B as (_ & _ & B). exact (IH _ A B). }
  subst m. pose proof (@tiles_from _ _ _ _ _ Tm2) as L.
  rewrite <- (@read_tiles _ _ _ _ _ Ta). replace (x0 + w1 - x0) with w1 by lia. unfold read_row. rewrite !flat_map_concat_map. f_equal. apply map_ext_in. intros x I. apply in_seq in I.
  rewrite run_cells by exact C. rewrite <- Em. unfold read_mark.
  assert (K : forall x, x0 <= x < x0 + w -> exists s, In s (map fst (ma ++ mb)) /\ covers u s x (y0 + j)) by (intros x' B; rewrite map_app; apply (@tiles_cover u _ _ _ _ Tm); lia).
  rewrite (@read_concat u y0 w x0 ms j (ma ++ mb) M) with (x := x); [|intros i r Q; eauto|exact K|lia].
  rewrite last_mark_app. replace (last_mark u x (y0 + j) mb) with (@None seen).
  2:{ symmetry. apply last_mark_none. intros X. apply (@tiles_cover u _ _ _ _ Tm2 x (y0 + j)) in X. lia. }
  destruct (last_mark u x (y0 + j) ma) eqn:Lm; [reflexivity|]. apply last_mark_none in Lm. exfalso. apply Lm, (@tiles_cover u _ _ _ _ Ta x (y0 + j)). lia.
Qed.
(** The columns of the text: all the ones of the area, but the last one when there's a scrollbar *)
Definition text_columns (lines : list FmtLine) (a : Area) : nat := if N.to_nat (a_height a) <? length lines then N.to_nat (a_width a) - 1 else N.to_nat (a_width a).
Lemma view_row u k um text a s t : usual u no_special k ->
  (6 <= a_width a)%N -> (1 <= a_height a)%N -> on_screen a -> margins_not_just k (N.to_nat (a_width a)) ->
  Forall (area_source u k (N.to_nat (a_width a) - 1)) text -> is_white u 32%N = true -> Forall readable_line text ->
  area_text u k um text a = Ret t -> length (txt_lines t) < N.to_nat 65536 -> N.to_nat s <= length (txt_lines t) - N.to_nat (a_height a) ->
  exists out, mad_write_on u no_special k um text a s = Ret out
  /\ forall tm j, j < N.to_nat (a_height a) ->
     visible u (read_row (term_run u tm out) (N.to_nat (a_left a)) (N.to_nat (a_top a) + j) (text_columns (txt_lines t) a))
     = match nth_error (txt_lines t) (N.to_nat s + j) with Some l => line_seen u k (text_columns (txt_lines t) a) l | None => [] end.
Proof.
  intros U W Hh S M T Wh R Et L1 L2. destruct (@C76_view_partial u no_special k um text a s U W Hh S M T) as (t' & Et' & V). rewrite Et in Et'. injection Et' as <-.
  destruct (V L1 L2) as (out & sb & E & Hsb & F). exists out. split; [exact E|].
  intros tm j J. destruct (F (t_x tm) (t_y tm)) as (_ & rows & Er & L & H). destruct (nth_error rows j) as [row|] eqn:Ej; [|apply nth_error_None in Ej; lia].
  destruct (H j row Ej) as (Tl & d & bar & Ed & Dl & B). unfold row_chars, with_style in Ed. rewrite map_app in Ed. apply map_eq_app in Ed as (r1 & r2 & -> & E1 & E2).
  assert (C1 : map s_char r1 = map fst d) by (apply (f_equal (map fst)) in E1; rewrite !map_map in E1; exact E1).
  assert (C2 : map s_char r2 = map fst bar) by (apply (f_equal (map fst)) in E2; rewrite !map_map in E2; exact E2).
  assert (Wc : text_columns (txt_lines t) a = match sb with None => N.to_nat (a_width a) | Some _ => N.to_nat (a_width a) - 1 end).
  { unfold text_columns. destruct sb as [sb|].
    - rewrite (proj2 (Nat.ltb_lt _ _)); [reflexivity|]. apply Hsb. discriminate.
    - rewrite (proj2 (Nat.ltb_ge _ _)); [reflexivity|]. destruct (Nat.le_gt_cases (length (txt_lines t)) (N.to_nat (a_height a))) as [Q|Q]; [exact Q|]. exfalso. apply (proj2 Hsb Q). reflexivity. }
  rewrite Wc. set (w1 := match sb with None => N.to_nat (a_width a) | Some _ => N.to_nat (a_width a) - 1 end) in *.
  assert (Ta : tiles u (N.to_nat (a_top a) + j) (N.to_nat (a_left a)) r1 (N.to_nat (a_left a) + w1)).
  { destruct (@tiles_split _ _ _ _ _ _ Tl) as (m & A & Q). replace (N.to_nat (a_left a) + w1) with m; [exact A|]. destruct sb as [[x y]|].
    - cbv zeta in B. destruct B as (B1 & B2). assert (N1 : exists c, map fst bar = [c] /\ chw u c = 1).
      { destruct U as (_ & _ & _ & _ & _ & U). inversion U as [|? ? U1 U']; subst. inversion U' as [|? ? U2 _]; subst.
        destruct ((x <=? N.of_nat (N.to_nat (a_top a) + j)) && (N.of_nat (N.to_nat (a_top a) + j) <=? y))%N eqn:Qb.
        - rewrite B1; [eexists; split; [reflexivity|exact U1]|]. apply andb_prop in Qb as (Q1 & Q2). lia.
        - rewrite B2; [eexists; split; [reflexivity|exact U2]|]. intros (Q1 & Q2). apply andb_false_iff in Qb as [Qb|Qb]; lia. }
      destruct N1 as (c & N1 & N2). rewrite N1 in C2. destruct r2 as [|s2 [|]]; try discriminate C2. injection C2 as C2. cbn [tiles] in Q. rewrite C2, N2 in Q. subst w1. destruct Q as (_ & _ & Q). lia.
    - subst bar. destruct r2; [|discriminate C2]. cbn [tiles] in Q. exact Q. }
  rewrite (@read_left u out tm (N.to_nat (a_left a)) (N.to_nat (a_top a)) (N.to_nat (a_width a)) rows) with (a := r1) (b := r2);
    [|eapply clean_area; right; eexists; exact E|exact Er|intros i r I; apply (H i r I)|exact Ej|exact Ta].
  rewrite visible_seen, C1. destruct (nth_error (txt_lines t) (N.to_nat s + j)) as [l|] eqn:El; [|subst d; apply visible_blanks, Wh].
  apply line_read; [exact Wh| |exact Dl]. assert (NT : Forall not_table (txt_lines t)).
  { unfold area_text in Et. inv1 Et. eapply (@C95_lines u k um text _ 0); eassumption. }
  rewrite Forall_forall in NT. apply NT. eapply nth_error_In. exact El.
Qed.

(** ** Scrolling *)

Lemma run_place A (text : N -> list A) a k ops : (0 < a_width a)%N -> (0 < a_height a)%N -> Forall (mv_op_ok (a_height a)) ops ->
  let n := N.of_nat (length (text (a_width a - 1)%N)) in
  mv_run (mv_from text a k) ops = Ret (mv_with (mv_from text a k) (place n (a_height a) ops)) /\ (place n (a_height a) ops <= max_scroll n (a_height a))%N.
Proof.
  intros Hw Hh Ho n.
  assert (G : forall s, (s <= max_scroll n (a_height a))%N -> mv_run (mv_with (mv_from text a k) s) ops
     = Ret (mv_with (mv_from text a k) (fold_left (fun s o => clamp n (a_height a) (Z.of_N s + asked (Z.of_N (a_height a)) o)) ops s))
     /\ (fold_left (fun s o => clamp n (a_height a) (Z.of_N s + asked (Z.of_N (a_height a)) o)) ops s <= max_scroll n (a_height a))%N).
  2:{ apply (G 0%N). lia. }
  induction Ho as [|o ops Ho _ IH]; intros s Hs; [split; [reflexivity|exact Hs]|]. cbn [mv_run fold_left].
  set (v := mv_with (mv_from text a k) s).
  assert (Hv : mv_ok v) by exact Hs. assert (Q : forall v', mv_same_but_scroll v v' -> v' = mv_with (mv_from text a k) (mv_scroll v')).
  { intros [t' a' k' s'] (Q1 & Q2 & Q3). cbn in *. subst. reflexivity. }
  assert (One : mv_apply v o = Ret (mv_with (mv_from text a k) (clamp n (a_height a) (Z.of_N s + asked (Z.of_N (a_height a)) o)))).
  { destruct o as [z|z|key|a']; cbn [mv_apply mv_op_ok asked] in *.
    - destruct (C40_mad_lines_partial _ v z Hv Hw Ho) as (v' & -> & E & B). rewrite (Q _ B), E. reflexivity.
    - destruct (C40_mad_pages_partial _ v z Hv Hw Ho) as (v' & -> & E & B). rewrite (Q _ B), E. reflexivity.
    - destruct (C40_mad_keys_partial _ v key Hv Hw Hh) as (v' & b & -> & _ & B & _ & E). rewrite bind_ret. f_equal. rewrite (Q _ B). f_equal.
      assert (Ew : mv_text_view v = Ret (mkTV a (text (a_width a - 1)%N) k s true)) by (unfold mv_text_view, subN; cbn [v mv_with mv_from mv_area mv_text mv_skin mv_scroll]; rewrite (proj2 (N.leb_le 1 (a_width a))) by lia; reflexivity). specialize (E _ Ew). rewrite E. destruct key as [m codes].
      match goal with |- scroll (fst (tv_apply_key ?tv _)) = _ => pose proof (C40_keys_partial _ tv m codes Hv Hh) as (K & _) end. etransitivity; [exact K|]. reflexivity.
    - contradiction Ho. }
  rewrite One, bind_ret. apply IH. unfold clamp. lia.
Qed.
Lemma place_pages n h i : (place n h (repeat page_down i) = N.min (N.of_nat i * h) (max_scroll n h))%N.
Proof.
  assert (G : forall s, (s <= max_scroll n h)%N -> fold_left (fun s o => clamp n h (Z.of_N s + asked (Z.of_N h) o)) (repeat page_down i) s = N.min (s + N.of_nat i * h) (max_scroll n h)).
  2:{ unfold place. rewrite G by lia. f_equal. }
  induction i as [|i IH]; intros s Hs; cbn [repeat fold_left]; [lia|]. rewrite IH by (unfold clamp; lia). cbn [asked page_down]. unfold clamp. generalize dependent (max_scroll n h). intros m. intros. nia.
Qed.
Lemma mad_view_write u special k um text a s t : area_text u k um text a = Ret t ->
  mv_write_on (render_line special k) (mv_with (source_view u k um text a) s) = mad_write_on u special k um text a s.
Proof.
  intros E. unfold mv_write_on, mv_text_view, mad_write_on. cbn [source_view mv_with mv_from mv_area mv_text mv_skin mv_scroll]. rewrite E, bind_ret. unfold area_text in E. inv1 E. rewrite E0, !bind_ret, E. reflexivity.
Qed.
Lemma lines_of_view u k um text a t : area_text u k um text a = Ret t -> mv_text (source_view u k um text a) (a_width a - 1)%N = txt_lines t.
Proof. intros E. unfold area_text in E. unfold subN in E. destruct (_ <=? _)%N; [|discriminate E]. cbn [bind] in E. cbn. rewrite E. reflexivity. Qed.

(** ** C98 *)

(** Whatever is asked to the view, it's drawn and the row [j] of its area shows the line [j] lines after the place where the reader went *)
Theorem C98_anywhere : forall u k um text a, usual u no_special k ->
  (6 <= a_width a)%N -> (1 <= a_height a)%N -> on_screen a -> margins_not_just k (N.to_nat (a_width a)) ->
  Forall (area_source u k (N.to_nat (a_width a) - 1)) text -> is_white u 32%N = true -> Forall readable_line text ->
  exists t, area_text u k um text a = Ret t
  /\ (length (txt_lines t) < N.to_nat 65536 -> forall ops, Forall (mv_op_ok (a_height a)) ops ->
  exists v out, mv_run (source_view u k um text a) ops = Ret v /\ mv_write_on (render_line no_special k) v = Ret out
  /\ forall tm j, j < N.to_nat (a_height a) ->
     visible u (read_row (term_run u tm out) (N.to_nat (a_left a)) (N.to_nat (a_top a) + j) (text_columns (txt_lines t) a))
     = match nth_error (txt_lines t) (N.to_nat (place (N.of_nat (length (txt_lines t))) (a_height a) ops) + j) with
       | Some l => line_seen u k (text_columns (txt_lines t) a) l
       | None => []
       end).
Proof.
  intros u k um text a U W Hh S M T Wh R. destruct (@C76_view_partial u no_special k um text a 0%N U W Hh S M T) as (t & Et & _). exists t. split; [exact Et|]. intros L1 ops Ho.
  destruct (@run_place _ (mv_text (source_view u k um text a)) a k ops ltac:(lia) ltac:(lia) Ho) as (Er & Hp). rewrite (@lines_of_view u k um text a t Et) in Er, Hp.
  set (s := place _ _ ops) in *. destruct (@view_row u k um text a s t U W Hh S M T Wh R Et L1) as (out & Eo & H); [unfold max_scroll in Hp; lia|].
  exists (mv_with (source_view u k um text a) s), out. split; [exact Er|]. split; [rewrite (@mad_view_write _ _ _ _ _ _ _ _ Et); exact Eo|]. exact H.
Qed.
Lemma seq_fresh {A} (f : A -> str) (lines : list A) s h d : d <= h -> s + h <= length lines ->
  flat_map (fun j => match nth_error lines (s + j) with Some l => f l | None => [] end) (seq (h - d) d) = flat_map f (firstn d (skipn (s + h - d) lines)).
Proof.
  intros Hd. replace (seq (h - d) d) with (map (fun j => (h - d) + j) (seq 0 d)).
  2:{ assert (G : forall q d i, map (fun j => q + j) (seq i d) = seq (q + i) d) by (clear; intros q; induction d as [|d IH]; intros i; [reflexivity|]; cbn [seq map]; f_equal; rewrite IH; f_equal; lia). rewrite G. f_equal. lia. }
  intros L. rewrite !flat_map_concat_map, map_map. 
  rewrite (map_ext (fun x => match nth_error lines (s + (h - d + x)) with Some l => f l | None => [] end) (fun x => match nth_error lines ((s + h - d) + x) with Some l => f l | None => [] end)) by (intros x; replace (s + (h - d + x)) with (s + h - d + x) by lia; reflexivity).
  assert (B : s + h - d + d <= length lines) by lia. clear L Hd. revert B. generalize (s + h - d). intros q B. f_equal. revert q B. induction d as [|d IH]; intros q B; [reflexivity|].
  destruct (nth_error lines q) as [l|] eqn:E; [|apply nth_error_None in E; lia]. apply nth_error_split in E as (l1 & l2 & -> & <-). rewrite skipn_app, skipn_all, Nat.sub_diag. cbn [app skipn firstn map seq].
  rewrite Nat.add_0_r, nth_error_app2, Nat.sub_diag by lia. cbn [nth_error]. f_equal. rewrite <- seq_shift, map_map. specialize (IH (S (length l1))). rewrite app_length in B. cbn [length] in B.
  replace (skipn (S (length l1)) (l1 ++ l :: l2)) with l2 in IH.
  2:{ rewrite skipn_app, skipn_all2 by lia. replace (S (length l1) - length l1) with 1 by lia. reflexivity. }
  rewrite <- IH by (rewrite app_length; cbn [length]; lia). apply map_ext. intros x. replace (length l1 + S x) with (S (length l1) + x) by lia. reflexivity.
Qed.

Lemma first_page {A} (f : A -> str) (lines : list A) : forall h,
  flat_map (fun j => match nth_error lines j with Some l => f l | None => [] end) (seq 0 h) = flat_map f (firstn h lines).
Proof.
  intros h. revert lines. induction h as [|h IH]; intros lines; [reflexivity|]. cbn [seq flat_map]. rewrite <- seq_shift, flat_map_concat_map, map_map, <- flat_map_concat_map. destruct lines as [|l lines]; cbn [nth_error firstn flat_map app].
  - clear. generalize (seq 0 h). induction l as [|x l IH]; [reflexivity|exact IH].
  - f_equal. apply IH.
Qed.
Lemma flat_map_in {A B} (f g : A -> list B) l : (forall x, In x l -> f x = g x) -> flat_map f l = flat_map g l.
Proof. intros H. rewrite !flat_map_concat_map. f_equal. apply map_ext_in, H. Qed.
Lemma firstn_more {A} (l : list A) a b : a <= b -> firstn b l = firstn a l ++ firstn (b - a) (skipn a l).
Proof. intros H. rewrite <- (firstn_skipn a (firstn b l)). rewrite firstn_firstn, Nat.min_l by lia. f_equal. rewrite skipn_firstn_comm. reflexivity. Qed.

(** With page downs from the top, on screens which may have been anything before: what is read on the first [m] pages is what can be seen of
    the first [m * height] lines, in order and without any repetition. So after enough pages it's all what can be seen in the source. *)
Theorem C98_pages : forall u k um text a, usual u no_special k ->
  (6 <= a_width a)%N -> (1 <= a_height a)%N -> on_screen a -> margins_not_just k (N.to_nat (a_width a)) ->
  Forall (area_source u k (N.to_nat (a_width a) - 1)) text -> is_white u 32%N = true -> Forall readable_line text ->
  exists t, area_text u k um text a = Ret t
  /\ let lines := txt_lines t in let w := text_columns lines a in let h := N.to_nat (a_height a) in
  (length lines < N.to_nat 65536 ->
   (forall i, exists out, (v <- mv_run (source_view u k um text a) (repeat page_down i) ;; mv_write_on (render_line no_special k) v) = Ret out)
   /\ forall (outs : nat -> list cmd) (tms : nat -> term) m,
      (forall i, i < m -> (v <- mv_run (source_view u k um text a) (repeat page_down i) ;; mv_write_on (render_line no_special k) v) = Ret (outs i)) ->
      let reading := flat_map (fun i => read_rows u (term_run u (tms i) (outs i)) a w (fresh_rows (N.of_nat (length lines)) (a_height a) i)) (seq 0 m) in
      reading = flat_map (line_seen u k w) (firstn (m * h) lines)
      /\ (length lines <= m * h -> reading = flat_map (to_read u k w) text)).
Proof.
  intros u k um text a U W Hh Sc M T Wh R. destruct (@C98_anywhere u k um text a U W Hh Sc M T Wh R) as (t & Et & V). exists t. split; [exact Et|]. cbv zeta. intros L.
  assert (Hops : forall i, Forall (mv_op_ok (a_height a)) (repeat page_down i)) by (induction i; constructor; [exact I|assumption]).
  split. { intros i. destruct (V L _ (Hops i)) as (v & out & E1 & E2 & _). exists out. rewrite E1, bind_ret. exact E2. }
  intros outs tms m Ho. set (lines := txt_lines t) in *. set (w := text_columns lines a) in *. set (h := N.to_nat (a_height a)) in *.
  assert (P : forall i, N.to_nat (place (N.of_nat (length lines)) (a_height a) (repeat page_down i)) = Nat.min (i * h) (length lines - h)) by (intros i; rewrite place_pages; unfold max_scroll; subst h; lia).
  assert (Row : forall i j, i < m -> j < h -> visible u (read_row (term_run u (tms i) (outs i)) (N.to_nat (a_left a)) (N.to_nat (a_top a) + j) w)
     = match nth_error lines (Nat.min (i * h) (length lines - h) + j) with Some l => line_seen u k w l | None => [] end).
  { intros i j Hi Hj. specialize (Ho i Hi). destruct (V L _ (Hops i)) as (v & out & E1 & E2 & H). rewrite E1, bind_ret, E2 in Ho. injection Ho as <-. rewrite (H (tms i) j Hj). rewrite P. reflexivity. }
  assert (Page : forall m', m' <= m -> flat_map (fun i => read_rows u (term_run u (tms i) (outs i)) a w (fresh_rows (N.of_nat (length lines)) (a_height a) i)) (seq 0 m') = flat_map (line_seen u k w) (firstn (m' * h) lines)).
  { induction m' as [|i IH]; intros Hm; [reflexivity|]. rewrite seq_S, flat_map_app, IH by lia. cbn [Nat.add flat_map]. rewrite app_nil_r.
    assert (Rd : forall rows, (forall j, In j rows -> j < h) -> read_rows u (term_run u (tms i) (outs i)) a w rows
       = flat_map (fun j => match nth_error lines (Nat.min (i * h) (length lines - h) + j) with Some l => line_seen u k w l | None => [] end) rows).
    { intros rows Hr. apply flat_map_in. intros j I. apply Row; [lia|apply Hr, I]. }
    destruct i as [|i].
    - rewrite Rd by (unfold fresh_rows; intros j I; apply in_seq in I; fold h in I; lia). cbn [fresh_rows Nat.mul firstn flat_map app]. rewrite Nat.add_0_r. fold h. apply first_page.
    - unfold fresh_rows. cbv zeta. rewrite !P. fold h. set (s := Nat.min (S i * h) (length lines - h)) in *. set (s' := Nat.min (i * h) (length lines - h)) in *.
      assert (D : s - s' <= h /\ s' <= s) by (subst s s'; cbn [Nat.mul]; lia). rewrite Rd by (intros j I; apply in_seq in I; lia).
      destruct (Nat.le_gt_cases (length lines) h) as [Q|Q].
      { replace (s - s') with 0 by (subst s s'; lia). cbn [seq flat_map]. rewrite app_nil_r. rewrite !firstn_all2 by (cbn [Nat.mul]; lia). reflexivity. }
      rewrite seq_fresh by (subst s s'; lia). replace (s + h - (s - s')) with (s' + h) by lia. 
      assert (F1 : firstn (S i * h) lines = firstn (s' + h) lines).
      { destruct (Nat.le_gt_cases (S i * h) (length lines)) as [B|B]; [f_equal; subst s'; cbn [Nat.mul] in *; lia|]. rewrite !firstn_all2; [reflexivity|subst s'; cbn [Nat.mul] in *; lia|lia]. }
      assert (F2 : firstn (S (S i) * h) lines = firstn (s + h) lines).
      { destruct (Nat.le_gt_cases (S (S i) * h) (length lines)) as [B|B]; [f_equal; subst s; cbn [Nat.mul] in *; lia|]. rewrite !firstn_all2; [reflexivity|subst s; cbn [Nat.mul] in *; lia|lia]. }
      rewrite F1, F2, <- flat_map_app. f_equal. rewrite (@firstn_more _ lines (s' + h) (s + h)) by lia. do 2 f_equal. lia. }
  rewrite (Page m (le_n m)). split; [reflexivity|]. intros Le. rewrite firstn_all2 by exact Le. unfold area_text in Et. inv1 Et. apply (@C95_lines u k um text _ w t Wh R Et).
Qed.
(** Giving another width to the view brings the reader back to the top: the view is the one of the source in the new area, so that [C98_pages] applies *)
Theorem C98_resized : forall u k um text a a' ops, (0 < a_width a)%N -> (0 < a_height a)%N -> Forall (mv_op_ok (a_height a)) ops ->
  a_width a' <> a_width a -> mv_run (source_view u k um text a) (ops ++ [MvResize a']) = Ret (source_view u k um text a').
Proof.
  intros u k um text a a' ops Hw Hh Ho Ha. destruct (@run_place _ (mv_text (source_view u k um text a)) a k ops Hw Hh Ho) as (Er & _). cbv zeta in Er.
  assert (App : forall (v v' : MadView FmtLine) o, mv_run v ops = Ret v' -> mv_run v (ops ++ [o]) = mv_apply v' o).
  { clear. intros v v' o. revert v. induction ops as [|q ops IH]; intros v H; cbn [mv_run app] in *; [injection H as ->; destruct (mv_apply v' o); reflexivity|]. destruct (mv_apply v q); cbn [bind] in *; try discriminate H. apply IH, H. }
  etransitivity; [apply App; exact Er|]. cbn [mv_apply]. unfold mv_resize. cbn [mv_with mv_from mv_area mv_text mv_skin source_view]. replace (area_eqb a' a) with false.
  - rewrite (proj2 (N.eqb_neq _ _) Ha). reflexivity.
  - symmetry. unfold area_eqb. rewrite (proj2 (N.eqb_neq _ _) Ha). rewrite andb_false_r. reflexivity.
Qed.
Print Assumptions C98_anywhere.
Print Assumptions C98_pages.
Print Assumptions C98_resized.
(** The source of [C95_example] in an area of 4 rows: two pages, the second one having two rows in common with the first one *)
Example C98_example : exists t o0 o1, area_text demo skin_default 1000 some_text (mkArea 3 2 15 4) = Ret t /\ length (txt_lines t) = 6
  /\ (v <- mv_run (source_view demo skin_default 1000 some_text (mkArea 3 2 15 4)) [] ;; mv_write_on (render_line no_special skin_default) v) = Ret o0
  /\ (v <- mv_run (source_view demo skin_default 1000 some_text (mkArea 3 2 15 4)) [page_down] ;; mv_write_on (render_line no_special skin_default) v) = Ret o1
  /\ fresh_rows 6 4 1 = [2; 3]
  /\ map (fun j => visible demo (read_row (term_run demo full_term o0) 3 (2 + j) 14)) [0; 1; 2; 3] = [repeat 97%N 3; repeat 98%N 9; repeat 99%N 9; 8226%N :: repeat 100%N 11]
  /\ map (fun j => visible demo (read_row (term_run demo (term_run demo full_term o0) o1) 3 (2 + j) 14)) [0; 1; 2; 3] = [repeat 99%N 9; 8226%N :: repeat 100%N 11; repeat 100%N 9; repeat 8213%N 14]
  /\ read_rows demo (term_run demo full_term o0) (mkArea 3 2 15 4) 14 (fresh_rows 6 4 0) ++ read_rows demo (term_run demo (term_run demo full_term o0) o1) (mkArea 3 2 15 4) 14 (fresh_rows 6 4 1)
     = flat_map (to_read demo skin_default 14) some_text.
Proof. do 3 eexists. repeat (split; [vm_compute; reflexivity|]). vm_compute. reflexivity. Qed.
