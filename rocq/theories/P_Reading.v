(** * C112: a text read in a view which is drawn again and again *)
From Verif Require Import Base L_Base M_Style M_Fit M_Wrap M_TblFit S_Wrap M_Text S_Text M_Fitter M_View S_View M_Render S_Render M_Area S_Input S_Pen S_Area S_Paint S_Read S_Whole S_Pages S_Look S_Reading L_Clean Demo.
From Verif Require Import P_Wrap P_Text P_Render P_Local S_Local P_View P_Area P_Paint P_Read P_Pen P_Whole P_Pages P_Look P_Reach.
Set Implicit Arguments.
Open Scope nat_scope.

Lemma reading_app u k : forall a b v tm, reading u k v tm (a ++ b) = ('(v', tm') <- reading u k v tm a ;; reading u k v' tm' b).
Proof. induction a as [|o a IH]; intros b v tm; [reflexivity|]. cbn [app reading]. destruct (mv_run v o) as [v'| |]; cbn [bind]; [|reflexivity|reflexivity]. destruct (mv_write_on _ v'); cbn [bind]; [apply IH|reflexivity|reflexivity]. Qed.

Lemma mv_run_app A : forall a b (v : MadView A), mv_run v (a ++ b) = (v' <- mv_run v a ;; mv_run v' b).
Proof. induction a as [|o a IH]; intros b v; [reflexivity|]. cbn [app mv_run]. destruct (mv_apply v o); cbn [bind]; [apply IH|reflexivity|reflexivity]. Qed.

(** Whatever is asked and however often the view is drawn, on a terminal which has its default style: what is seen is the part of the text where the reader is, with its looks; out of the area nothing has changed *)
Theorem C112_reading : forall u k um text a, usual u no_special k ->
  (6 <= a_width a)%N -> (1 <= a_height a)%N -> on_screen a -> margins_not_just k (N.to_nat (a_width a)) ->
  Forall (area_source u k (N.to_nat (a_width a) - 1)) text -> is_white u 32%N = true -> ellipsis_seen u -> Forall no_ellipsis text ->
  exists t ps bws, area_text u k um text a = Ret t
  /\ length ps = length text /\ length bws = length text /\ Forall (fun p => 1 <= l_rows p) ps /\ sum (map l_rows ps) = length (txt_lines t) /\ aligned text ps /\ same_blocks text bws
  /\ (length (txt_lines t) < N.to_nat 65536 -> forall groups tm, Forall (Forall (mv_op_ok (a_height a))) groups -> t_pen tm = pen0 ->
  exists v tm', reading u k (source_view u k um text a) tm groups = Ret (v, tm') /\ t_pen tm' = pen0
  /\ (forall x y, ~ inside a x y -> t_cell tm' x y = t_cell tm x y)
  /\ let s := N.to_nat (place (N.of_nat (length (txt_lines t))) (a_height a) (concat groups)) in
     let w := text_columns (txt_lines t) a in
     groups <> [] ->
     (forall i l p bw, nth_error text i = Some l -> nth_error ps i = Some p -> nth_error bws i = Some bw ->
      let n := sum (map l_rows (firstn i ps)) in s <= n -> n + l_rows p <= s + N.to_nat (a_height a) ->
      looks_line u k tm' p bw l (N.to_nat (a_left a)) (N.to_nat (a_top a) + (n - s)) w)
     /\ (N.to_nat (a_height a) < length (txt_lines t) -> exists from to, forall j, j < N.to_nat (a_height a) ->
         look_row tm' (N.to_nat (a_left a) + w) (N.to_nat (a_top a) + j) 1
         = [char_look (if (from <=? j) && (j <? to) then thumb (scrollbar k) else track (scrollbar k))])).
Proof.
  intros u k um text a U W Hh S M T Wh El NE. destruct (@C106_view u k um text a U W Hh S M T Wh El NE) as (t & ps & bws & Et & P1 & P2 & P3 & P4 & P5 & P6 & V). exists t, ps, bws. do 7 (split; [assumption|]). intros L1.
  assert (DR : forall ops, Forall (mv_op_ok (a_height a)) ops -> let s := place (N.of_nat (length (txt_lines t))) (a_height a) ops in
     mv_run (source_view u k um text a) ops = Ret (mv_with (source_view u k um text a) s) /\ N.to_nat s <= length (txt_lines t) - N.to_nat (a_height a)
     /\ mv_write_on (render_line no_special k) (mv_with (source_view u k um text a) s) = mad_write_on u no_special k um text a s).
  { intros ops Ho. destruct (@run_place _ (mv_text (source_view u k um text a)) a k ops ltac:(lia) ltac:(lia) Ho) as (Er & Hp). rewrite (@lines_of_view u k um text a t Et) in Er, Hp. cbv zeta. split; [exact Er|].
    split; [unfold max_scroll in Hp; lia|]. apply (@mad_view_write _ _ _ _ _ _ _ _ Et). }
  assert (IV : forall groups tm, Forall (Forall (mv_op_ok (a_height a))) groups -> t_pen tm = pen0 ->
     let s := place (N.of_nat (length (txt_lines t))) (a_height a) (concat groups) in
     exists tm', reading u k (source_view u k um text a) tm groups = Ret (mv_with (source_view u k um text a) s, tm') /\ t_pen tm' = pen0
     /\ (forall x y, ~ inside a x y -> t_cell tm' x y = t_cell tm x y)
     /\ (groups <> [] -> exists tm0 out, t_pen tm0 = pen0 /\ mad_write_on u no_special k um text a s = Ret out /\ tm' = term_run u tm0 out)).
  { intros groups tm. induction groups as [|ops groups IH] using rev_ind; intros HG TP; cbv zeta.
    - exists tm. split; [reflexivity|]. split; [exact TP|]. split; [reflexivity|]. intros X. contradiction.
    - apply Forall_app in HG as (HG & HO). inversion HO as [|? ? Ho _]; subst. destruct (IH HG TP) as (tm1 & E1 & TP1 & O1 & _). rewrite reading_app, E1. cbn [bind reading]. rewrite concat_app. cbn [concat]. rewrite app_nil_r.
      assert (HC : Forall (mv_op_ok (a_height a)) (concat groups)) by (apply Forall_concat; exact HG).
      destruct (DR _ HC) as (R1 & _ & _). destruct (DR (concat groups ++ ops)) as (R2 & B2 & W2); [apply Forall_app; auto|]. rewrite mv_run_app, R1 in R2. cbn [bind] in R2. rewrite R2. cbn [bind]. rewrite W2.
      set (s := place _ _ (concat groups ++ ops)) in *. destruct (@C94_view u no_special k um text a s U W Hh S M T) as (t' & Et' & D). assert (t' = t) by congruence. subst t'. destruct (D L1 B2) as (out & Eo & pic & Dr).
      rewrite Eo. cbn [bind]. exists (term_run u tm1 out). destruct (Dr tm1 TP1) as (D1 & D2). split; [reflexivity|]. split; [exact D1|]. split; [intros x y N; rewrite (proj2 (D2 x y) N); apply O1, N|].
      intros _. exists tm1, out. auto. }
  intros groups tm HG TP. destruct (IV groups tm HG TP) as (tm' & E & TP' & O & K). eexists. exists tm'. split; [exact E|]. split; [exact TP'|]. split; [exact O|]. cbv zeta. intros NE'. destruct (K NE') as (tm0 & out & TP0 & Eo & ->).
  assert (HC : Forall (mv_op_ok (a_height a)) (concat groups)) by (apply Forall_concat; exact HG). destruct (DR _ HC) as (_ & B & _). cbv zeta in B.
  set (s := place _ _ (concat groups)) in *. destruct (V L1 s B) as (out' & Eo' & H). assert (out' = out) by congruence. subst out'. cbv zeta in H. specialize (H tm0 TP0).
  match type of H with context [if ?b then ?x else ?y] => replace (if b then x else y) with (text_columns (txt_lines t) a) in H by (unfold text_columns; destruct (Nat.leb_spec (length (txt_lines t)) (N.to_nat (a_height a))), (Nat.ltb_spec (N.to_nat (a_height a)) (length (txt_lines t))); lia) end.
  destruct H as (H1 & H2). split; [exact H1|]. intros L. apply H2. apply Nat.ltb_lt, L.
Qed.
Lemma reach_place n m h ops : (place m h ops <= max_scroll m h)%N -> exists key j, (key = up \/ key = down) /\ place m h (ops ++ repeat key j) = N.min n (max_scroll m h).
Proof.
  intros Hs. set (s := place m h ops) in *. destruct (N.le_gt_cases s n) as [L|L].
  - exists down, (N.to_nat (n - s)). split; [right; reflexivity|]. rewrite place_app. fold s. rewrite downs by exact Hs. lia.
  - exists up, (N.to_nat (s - n)). split; [left; reflexivity|]. rewrite place_app. fold s. rewrite ups by exact Hs. lia.
Qed.
Lemma rows_before_le : forall ps i p, nth_error ps i = Some p -> sum (map l_rows (firstn i ps)) + l_rows p <= sum (map l_rows ps).
Proof.
  induction ps as [|p0 ps IH]; intros [|i] p Hp; try discriminate; cbn [nth_error firstn map] in *.
  - injection Hp as ->. change (sum (l_rows p :: map l_rows ps)) with (l_rows p + sum (map l_rows ps)). unfold sum at 1. cbn. lia.
  - change (sum (l_rows p0 :: map l_rows ps)) with (l_rows p0 + sum (map l_rows ps)). change (sum (l_rows p0 :: map l_rows (firstn i ps))) with (l_rows p0 + sum (map l_rows (firstn i ps))). specialize (IH i p Hp). lia.
Qed.
(** Whatever was read before, presses on up or on down, and one more drawing, show with its looks any source line whose rows aren't more than those of the area *)
Theorem C112_reach : forall u k um text a, usual u no_special k ->
  (6 <= a_width a)%N -> (1 <= a_height a)%N -> on_screen a -> margins_not_just k (N.to_nat (a_width a)) ->
  Forall (area_source u k (N.to_nat (a_width a) - 1)) text -> is_white u 32%N = true -> ellipsis_seen u -> Forall no_ellipsis text ->
  exists t ps bws, area_text u k um text a = Ret t
  /\ length ps = length text /\ length bws = length text /\ Forall (fun p => 1 <= l_rows p) ps /\ sum (map l_rows ps) = length (txt_lines t) /\ aligned text ps /\ same_blocks text bws
  /\ (length (txt_lines t) < N.to_nat 65536 -> forall groups tm, Forall (Forall (mv_op_ok (a_height a))) groups -> t_pen tm = pen0 ->
      forall i l p bw, nth_error text i = Some l -> nth_error ps i = Some p -> nth_error bws i = Some bw -> l_rows p <= N.to_nat (a_height a) ->
      exists key j v tm' y, (key = up \/ key = down) /\ reading u k (source_view u k um text a) tm (groups ++ [repeat key j]) = Ret (v, tm') /\ y + l_rows p <= N.to_nat (a_height a)
      /\ looks_line u k tm' p bw l (N.to_nat (a_left a)) (N.to_nat (a_top a) + y) (text_columns (txt_lines t) a)).
Proof.
  intros u k um text a U W Hh S M T Wh El NE. destruct (@C112_reading u k um text a U W Hh S M T Wh El NE) as (t & ps & bws & Et & P1 & P2 & P3 & P4 & P5 & P6 & V). exists t, ps, bws. do 7 (split; [assumption|]).
  intros L1 groups tm HG TP i l p bw Hi Hp Hb Hl. set (n := sum (map l_rows (firstn i ps))). pose proof (@rows_before_le ps i p Hp) as Ln. fold n in Ln. rewrite P4 in Ln.
  destruct (@run_place _ (mv_text (source_view u k um text a)) a k (concat groups) ltac:(lia) ltac:(lia) ltac:(apply Forall_concat; exact HG)) as (_ & Hs). rewrite (@lines_of_view u k um text a t Et) in Hs.
  destruct (@reach_place (N.of_nat n) _ _ _ Hs) as (key & j & K & Q).
  destruct (V L1 (groups ++ [repeat key j]) tm) as (v & tm' & E & _ & _ & H); [apply Forall_app; split; [exact HG|]; constructor; [|constructor]; apply Forall_forall; intros o I; apply repeat_spec in I; subst o; destruct K as [-> | ->]; exact Logic.I|exact TP|].
  cbv zeta in H. destruct H as (H & _); [destruct groups; discriminate|]. rewrite concat_app in H. cbn [concat] in H. rewrite app_nil_r, Q in H. specialize (H i l p bw Hi Hp Hb). fold n in H.
  unfold max_scroll in *. set (m := length (txt_lines t)) in *. exists key, j, v, tm', (n - N.to_nat (N.min (N.of_nat n) (N.of_nat m - a_height a))). split; [exact K|]. split; [exact E|]. split; [lia|]. apply H; lia.
Qed.
Print Assumptions C112_reading.
Print Assumptions C112_reach.

(** The text of [C106_example] in an area of 4 rows: drawn, then again after a page down, then after a press on up *)
Definition read_looks (groups : list (list mv_op)) : list (list (char * pen)) :=
  match reading demo skin_default (source_view demo skin_default 1000 look_text (mkArea 3 2 18 4)) full_term groups with
  | Ret (_, tm) => map (fun j => look_row tm 3 (2 + j) 10) (seq 0 4)
  | _ => []
  end.
Example C112_example : usual demo no_special skin_default /\ on_screen (mkArea 3 2 18 4) /\ margins_not_just skin_default 18 /\ Forall (area_source demo skin_default 17) look_text
  /\ is_white demo 32%N = true /\ ellipsis_seen demo /\ Forall no_ellipsis look_text /\ Forall (Forall (mv_op_ok 4)) [[]; [page_down]; [up]] /\ t_pen full_term = pen0
  /\ let code := mkPen (AnsiValue 249) (AnsiValue 235) in let bold := mkPen Reset Reset 4 in let border := (9474%N, mkPen (AnsiValue 239) Reset 0) in let blank := (32%N, pen0) in
     let r0 := repeat (97%N, pen0) 6 ++ [blank] ++ repeat (98%N, bold) 3 in
     let r1 := repeat (99%N, code 16%N) 9 ++ [blank] in
     let r2 := repeat blank 7 ++ repeat (97%N, mkPen Reset Reset 36) 2 ++ [blank] in
     let r3 := [(98%N, code 0%N); (32%N, code 0%N); (32%N, code 0%N); (98%N, code 0%N)] ++ repeat blank 6 in
     let r4 := [(32%N, code 0%N); (99%N, code 0%N); (32%N, code 0%N); (32%N, code 0%N)] ++ repeat blank 6 in
     let r5 := [border; blank; (97%N, pen0); blank; border; (98%N, bold); (98%N, bold); blank; border; blank] in
     read_looks [[]] = [r0; r1; r2; r3] /\ read_looks [[]; [page_down]] = [r2; r3; r4; r5] /\ read_looks [[]; [page_down]; [up]] = [r1; r2; r3; r4].
Proof.
  destruct C106_example as (E1 & E2 & E3 & E4 & E5 & E6 & _ & E8 & _).
  split; [exact E1|]. split; [split; reflexivity|]. split; [exact E2|]. split; [exact E3|]. split; [exact E4|]. split; [exact E5|]. split; [exact E6|].
  split; [repeat constructor|]. split; [exact E8|]. split; [vm_compute; reflexivity|]. split; vm_compute; reflexivity.
Qed.
