(** * C115: a text read in a view which is resized *)
From Verif Require Import Base L_Base M_Style M_Fit M_Wrap M_TblFit S_Wrap M_Text S_Text M_Fitter M_View S_View M_Render S_Render M_Area S_Input S_Pen S_Area S_Paint S_Read S_Whole S_Pages S_Look S_Reading S_Resized L_Clean L_View Demo.
From Verif Require Import P_Wrap P_Text P_Render P_Local S_Local P_View P_Area P_Paint P_Read P_Pen P_Whole P_Pages P_Look P_Reach P_Reading.
Set Implicit Arguments.
Open Scope nat_scope.

Lemma good_text u k um text a : usual u no_special k -> good_area u k um text a -> exists t, area_text u k um text a = Ret t /\ lines_in u k um text a = N.of_nat (length (txt_lines t)).
Proof.
  intros U (W & Hh & S & M & T & _). destruct (@view_anywhere u no_special k um text a 0%N U W Hh S M T) as (t & Et & _). exists t. split; [exact Et|]. unfold lines_in. rewrite Et. reflexivity.
Qed.
Lemma op_after u k um text a s o : usual u no_special k -> good_area u k um text a -> (s <= lines_in u k um text a)%N -> (match o with MvResize b => good_area u k um text b | _ => mv_op_ok (a_height a) o end) ->
  let (a', s') := after (lines_in u k um text) (a, s) o in
  mv_apply (mv_with (source_view u k um text a) s) o = Ret (mv_with (source_view u k um text a') s') /\ good_area u k um text a' /\ (s' <= lines_in u k um text a')%N.
Proof.
  intros U G Hs Ho. destruct (@good_text u k um text a U G) as (t & Et & En). pose proof G as (W & Hh & _). unfold after.
  assert (TV : mv_text_view (mv_with (source_view u k um text a) s) = Ret (mkTV a (txt_lines t) k s true)).
  { unfold mv_text_view. cbn [source_view mv_with mv_from mv_area mv_text mv_skin mv_scroll]. rewrite subN_ret, bind_ret by lia. f_equal. f_equal. exact (@lines_of_view u k um text a t Et). }
  assert (SL : forall z, (-2147483648 < z)%Z -> mv_try_scroll_lines (mv_with (source_view u k um text a) s) z
    = Ret (mv_with (source_view u k um text a) (if (z <? 0)%Z then Z.to_N (Z.of_N s + z) else N.min (s + Z.to_N z) (max_scroll (lines_in u k um text a) (a_height a))))).
  { intros z Hz. unfold mv_try_scroll_lines. rewrite TV, bind_ret. unfold tv_try_scroll_lines, I32_MIN. destruct (Z.ltb_spec z 0) as [L|L].
    - destruct (Z.eqb_spec z (-2147483648)); [lia|]. cbn [scroll tv_with]. rewrite bind_ret. cbn [scroll tv_with]. unfold mv_with. cbn [source_view mv_from mv_text mv_area mv_skin]. f_equal. f_equal.
      destruct (N.leb_spec s (Z.to_N (- z))); lia.
    - rewrite bind_ret. unfold set_scroll. cbn [fst tv_with scroll tv_area content_height tv_lines]. unfold mv_with. cbn [source_view mv_from mv_text mv_area mv_skin]. f_equal. f_equal. rewrite En. unfold content_height, max_scroll. cbn [tv_lines].
      destruct (N.ltb_spec (a_height a) (N.of_nat (length (txt_lines t)))); lia. }
  destruct o as [z|z|key|b].
  - cbn [mv_op_ok mv_apply] in *. split; [rewrite SL by exact Ho; reflexivity|]. split; [exact G|]. unfold goes, max_scroll. cbn [asked]. destruct (Z.ltb_spec z 0); lia.
  - cbn [mv_op_ok mv_apply] in *. unfold mv_try_scroll_pages, I32_MIN, I32_MAX. cbv zeta. cbn [source_view mv_with mv_from mv_area].
    split; [destruct ((_ <=? _) && (_ <=? _))%Z eqn:E; [|lia]; apply SL; lia|]. split; [exact G|]. unfold goes, max_scroll. cbn [asked]. match goal with |- context [if ?c then _ else _] => destruct c eqn:Ez end; lia.
  - cbn [mv_apply]. split; [|split; [exact G|]].
    + unfold mv_apply_key. rewrite TV, bind_ret. rewrite En. clear SL TV. destruct key as [m codes]. unfold goes, tv_apply_key, max_scroll. cbn [kmods kcodes].
      destruct (N.eqb_spec m 0) as [->|Hm]; cbn [negb].
      2:{ rewrite bind_ret. replace (asked (Z.of_N (a_height a)) (MvKey (mkKey m codes))) with 0%Z by (cbn [asked]; destruct m; [congruence|reflexivity]). cbn [Z.ltb Z.compare]. f_equal. f_equal. lia. }
      destruct codes as [|c [|c2 r]]; [rewrite bind_ret; cbn [asked Z.ltb Z.compare]; f_equal; f_equal; lia| |destruct c; rewrite bind_ret; cbn [asked Z.ltb Z.compare]; f_equal; f_equal; lia].
      destruct c; try (rewrite bind_ret; cbn [asked Z.ltb Z.compare]; f_equal; f_equal; lia).
      all: unfold tv_line_up, tv_line_down, tv_page_up, tv_page_down, content_height; cbn [asked scroll tv_area tv_lines tv_with]; cbv zeta.
      all: repeat match goal with |- context [N.ltb ?x ?y] => destruct (N.ltb_spec x y) end; cbn [bind fst]; cbn [scroll tv_with]; f_equal; unfold mv_with; cbn [source_view mv_from mv_text mv_area mv_skin]; f_equal; repeat match goal with |- context [if ?c then _ else _] => destruct c eqn:? end; lia.
    + unfold goes, max_scroll. match goal with |- context [if ?c then _ else _] => destruct c eqn:Ez end; lia.
  - cbn [mv_apply]. unfold mv_resize. cbn [source_view mv_with mv_from mv_area mv_scroll mv_text mv_skin]. split; [|split; [exact Ho|]].
    + destruct (area_eqb b a) eqn:E.
      * assert (b = a) as ->. { unfold area_eqb in E. destruct a as [a1 a2 a3 a4], b as [b1 b2 b3 b4]. cbn in E. f_equal; lia. } rewrite N.eqb_refl. reflexivity.
      * destruct (a_width b =? a_width a)%N; reflexivity.
    + destruct (N.eqb_spec (a_width b) (a_width a)) as [E|E]; [|lia]. enough (lines_in u k um text b = lines_in u k um text a) by lia. unfold lines_in, area_text. rewrite E. reflexivity.
Qed.
Lemma run_after u k um text : usual u no_special k -> forall ops a s rest, good_area u k um text a -> (s <= lines_in u k um text a)%N -> ops_good (good_area u k um text) a (ops ++ rest) ->
  exists s', fold_left (after (lines_in u k um text)) ops (a, s) = (area_of a ops, s')
  /\ mv_run (mv_with (source_view u k um text a) s) ops = Ret (mv_with (source_view u k um text (area_of a ops)) s')
  /\ good_area u k um text (area_of a ops) /\ (s' <= lines_in u k um text (area_of a ops))%N /\ ops_good (good_area u k um text) (area_of a ops) rest.
Proof.
  intros U. induction ops as [|o ops IH]; intros a s rest G Hs Ho.
  - exists s. split; [reflexivity|]. split; [reflexivity|]. split; [exact G|]. split; [exact Hs|exact Ho].
  - assert (Ho1 : match o with MvResize b => good_area u k um text b | _ => mv_op_ok (a_height a) o end) by (destruct o; exact (proj1 Ho)).
    pose proof (@op_after u k um text a s o U G Hs Ho1) as One. destruct (after (lines_in u k um text) (a, s) o) as (a1, s1) eqn:E1. destruct One as (R1 & G1 & S1).
    assert (A1 : a1 = match o with MvResize b => b | _ => a end) by (unfold after in E1; destruct o; injection E1 as <- _; reflexivity).
    destruct (IH a1 s1 rest G1 S1) as (s' & F & R & H); [rewrite A1; destruct o; exact (proj2 Ho)|].
    exists s'. unfold area_of. cbn [fold_left mv_run]. rewrite E1, R1, bind_ret, <- A1. split; [exact F|]. split; [exact R|exact H].
Qed.
Lemma drawing u k um text a : usual u no_special k -> is_white u 32%N = true -> ellipsis_seen u -> Forall no_ellipsis text -> good_area u k um text a ->
  exists n ps bws, laid_in u k um text a n ps bws
  /\ forall s, (s <= lines_in u k um text a)%N -> exists out, mv_write_on (render_line no_special k) (mv_with (source_view u k um text a) s) = Ret out /\ draws u (inside a) out
  /\ forall tm, t_pen tm = pen0 -> seen_from u k (term_run u tm out) text a n ps bws (N.to_nat s).
Proof.
  intros U Wh El NE G. destruct (@good_text u k um text a U G) as (t & Et & En). destruct G as (W & Hh & S & M & T & L). rewrite En in *.
  destruct (@look_anywhere u k um text a U W Hh S M T Wh El NE) as (t' & ps & bws & Et' & P2 & P3 & P4 & P5 & P6 & P7 & V). assert (t' = t) as -> by congruence.
  exists (length (txt_lines t)), ps, bws. split; [repeat (split; [assumption|]); assumption|]. intros s Hs.
  assert (F : scroll_far a (length (txt_lines t)) s) by (right; lia). destruct (V ltac:(lia) s F) as (out & Eo & H). exists out. split; [rewrite (@mad_view_write _ _ _ _ _ _ _ _ Et); exact Eo|]. split.
  - destruct (@view_anywhere u no_special k um text a s U W Hh S M T) as (t' & Et2 & R). assert (t' = t) as -> by congruence. destruct (R ltac:(lia) F) as (out' & sb & E & _ & Fi). assert (out' = out) as -> by congruence.
    eexists. apply spots_pictures; [| | |exact (proj1 (proj1 (Fi 0 0)))].
    + eapply clean_area. right. eexists. exact E.
    + eapply C80_area. right. eexists. exact E.
    + intros x0 y0. apply placed_screen. unfold mad_write_on in E. inv1 E. eapply view_placed, E.
  - intros tm TP. cbv zeta in H. destruct (H tm TP) as (H1 & H2). split; [exact H1|]. intros B. apply H2. apply Nat.ltb_lt, B.
Qed.
Lemma sessions u k um text : usual u no_special k -> is_white u 32%N = true -> ellipsis_seen u -> Forall no_ellipsis text -> forall groups a s tm,
  good_area u k um text a -> (s <= lines_in u k um text a)%N -> ops_good (good_area u k um text) a (concat groups) -> t_pen tm = pen0 ->
  exists a' s' tm', fold_left (after (lines_in u k um text)) (concat groups) (a, s) = (a', s') /\ good_area u k um text a' /\ (s' <= lines_in u k um text a')%N
  /\ reading u k (mv_with (source_view u k um text a) s) tm groups = Ret (mv_with (source_view u k um text a') s', tm') /\ t_pen tm' = pen0
  /\ (forall x y, (forall b, In b (drawn_areas a groups) -> ~ inside b x y) -> t_cell tm' x y = t_cell tm x y)
  /\ (groups <> [] -> exists tm0 out, t_pen tm0 = pen0 /\ mv_write_on (render_line no_special k) (mv_with (source_view u k um text a') s') = Ret out /\ tm' = term_run u tm0 out).
Proof.
  intros U Wh El NE. induction groups as [|g groups IH]; intros a s tm G Hs Ho TP.
  - exists a, s, tm. split; [reflexivity|]. split; [exact G|]. split; [exact Hs|]. split; [reflexivity|]. split; [exact TP|]. split; [reflexivity|congruence].
  - cbn [concat] in *. destruct (@run_after u k um text U g a s (concat groups) G Hs Ho) as (s1 & F1 & R1 & G1 & S1 & O1). set (a1 := area_of a g) in *.
    destruct (@drawing u k um text a1 U Wh El NE G1) as (n & ps & bws & _ & D). destruct (D s1 S1) as (out & Eo & (pic & Dr) & _). destruct (Dr tm TP) as (T1 & C1).
    destruct (IH a1 s1 (term_run u tm out) G1 S1 O1 T1) as (a' & s' & tm' & F & G' & S' & R & TP' & Out & Last).
    exists a', s', tm'. rewrite fold_left_app, F1. split; [exact F|]. split; [exact G'|]. split; [exact S'|]. cbn [reading]. rewrite R1, bind_ret, Eo, bind_ret. split; [exact R|]. split; [exact TP'|]. split.
    + intros x y N. cbn [drawn_areas] in N. fold a1 in N. rewrite Out by (intros b I; apply N; right; exact I). apply (proj2 (C1 x y)). apply N. left. reflexivity.
    + intros _. destruct groups as [|g2 groups]; [|apply Last; discriminate]. cbn [concat fold_left] in F. injection F as <- <-. cbn [reading] in R. injection R as <-. exists tm, out. auto.
Qed.

(** Whatever is asked, resizes included, and however often the view is drawn: nothing panics, the view is in the area and at the place of the reference, the cells out of the areas where it
    was drawn are the ones of before, and what is seen in its area is the text from this place with its looks, with nothing of the previous drawings *)
Theorem C115_resized : forall u k um text a0, usual u no_special k -> is_white u 32%N = true -> ellipsis_seen u -> Forall no_ellipsis text -> good_area u k um text a0 ->
  forall groups tm, ops_good (good_area u k um text) a0 (concat groups) -> t_pen tm = pen0 ->
  exists a s tm', fold_left (after (lines_in u k um text)) (concat groups) (a0, 0%N) = (a, s)
  /\ reading u k (source_view u k um text a0) tm groups = Ret (mv_with (source_view u k um text a) s, tm') /\ t_pen tm' = pen0
  /\ (forall x y, (forall b, In b (drawn_areas a0 groups) -> ~ inside b x y) -> t_cell tm' x y = t_cell tm x y)
  /\ (groups <> [] -> exists n ps bws, laid_in u k um text a n ps bws /\ seen_from u k tm' text a n ps bws (N.to_nat s)).
Proof.
  intros u k um text a0 U Wh El NE G groups tm Ho TP. destruct (@sessions u k um text U Wh El NE groups a0 0%N tm G ltac:(lia) Ho TP) as (a & s & tm' & F & G' & S' & R & TP' & Out & Last).
  exists a, s, tm'. split; [exact F|]. split; [exact R|]. split; [exact TP'|]. split; [exact Out|]. intros N. destruct (Last N) as (tm0 & out & T0 & Eo & ->).
  destruct (@drawing u k um text a U Wh El NE G') as (n & ps & bws & La & D). exists n, ps, bws. split; [exact La|]. destruct (D s S') as (out' & Eo' & _ & H). assert (out' = out) as -> by congruence. apply H, T0.
Qed.
(** The place is never after the end of the text. It's not more than the one of the last page when no resize makes the area higher without changing its width, and after any scroll downwards, even of 0 line. *)
Theorem C115_place : forall u k um text a0, usual u no_special k -> good_area u k um text a0 -> forall ops, ops_good (good_area u k um text) a0 ops ->
  exists a s, fold_left (after (lines_in u k um text)) ops (a0, 0%N) = (a, s) /\ (s <= lines_in u k um text a)%N
  /\ (not_higher a0 ops -> (s <= max_scroll (lines_in u k um text a) (a_height a))%N)
  /\ forall z, (0 <= z)%Z -> (goes (lines_in u k um text a) (a_height a) s (MvLines z) <= max_scroll (lines_in u k um text a) (a_height a))%N.
Proof.
  intros u k um text a0 U G ops Ho. destruct (@run_after u k um text U ops a0 0%N [] G ltac:(lia) ltac:(rewrite app_nil_r; exact Ho)) as (s & F & _ & _ & S1 & _).
  exists (area_of a0 ops), s. split; [exact F|]. split; [exact S1|]. split.
  - clear S1 G Ho. assert (X : forall ops a s0 a' s', (s0 <= max_scroll (lines_in u k um text a) (a_height a))%N -> fold_left (after (lines_in u k um text)) ops (a, s0) = (a', s') -> not_higher a ops -> (s' <= max_scroll (lines_in u k um text a') (a_height a'))%N).
    { clear. induction ops as [|o ops IH]; intros a s0 a' s' H F N; [injection F as <- <-; exact H|]. cbn [fold_left] in F. unfold after in F at 2.
      destruct o as [z|z|key|b]; (eapply IH; [|exact F|first [exact (proj2 N)|exact N]]); clear F IH; try (unfold goes, max_scroll in *; match goal with |- context [if ?c then _ else _] => destruct c eqn:? end; lia).
      destruct (N.eqb_spec (a_width b) (a_width a)) as [E|E]; [|lia]. destruct N as (N & _). specialize (N E). assert (lines_in u k um text b = lines_in u k um text a) as -> by (unfold lines_in, area_text; rewrite E; reflexivity). unfold max_scroll in *. lia. }
    intros N. eapply X; [|exact F|exact N]. lia.
  - intros z Hz. unfold goes. cbn [asked]. destruct (Z.ltb_spec z 0); lia.
Qed.
Lemma after_up n a s : after n (a, s) up = (a, (s - 1)%N).
Proof. unfold after, up, goes. change (asked (Z.of_N (a_height a)) (MvKey (mkKey 0 [KUp]))) with (-1)%Z. change (-1 <? 0)%Z with true. cbv iota. f_equal. lia. Qed.
Lemma after_down n a s : (s <= max_scroll (n a) (a_height a))%N -> after n (a, s) down = (a, N.min (s + 1) (max_scroll (n a) (a_height a))).
Proof. intros H. unfold after, down, goes. change (asked (Z.of_N (a_height a)) (MvKey (mkKey 0 [KDown]))) with 1%Z. change (1 <? 0)%Z with false. cbv iota. cbv zeta. f_equal. lia. Qed.
Lemma after_ups n a j : forall s, fold_left (after n) (repeat up j) (a, s) = (a, (s - N.of_nat j)%N).
Proof. induction j as [|j IH]; intros s; cbn [repeat fold_left]; [f_equal; lia|]. rewrite after_up, IH. f_equal. lia. Qed.
Lemma after_downs n a j : forall s, (s <= max_scroll (n a) (a_height a))%N -> fold_left (after n) (repeat down j) (a, s) = (a, N.min (s + N.of_nat j) (max_scroll (n a) (a_height a))).
Proof. induction j as [|j IH]; intros s Hs; cbn [repeat fold_left]; [f_equal; lia|]. rewrite after_down, IH by lia. f_equal. lia. Qed.
(** Whatever was asked before, resizes included, presses on up or on down and one more drawing show with its looks any source line whose rows aren't more than those of the area *)
Theorem C115_reach : forall u k um text a0, usual u no_special k -> is_white u 32%N = true -> ellipsis_seen u -> Forall no_ellipsis text -> good_area u k um text a0 ->
  forall groups tm, ops_good (good_area u k um text) a0 (concat groups) -> t_pen tm = pen0 ->
  let a := area_of a0 (concat groups) in
  exists n ps bws, laid_in u k um text a n ps bws
  /\ forall i l p bw, nth_error text i = Some l -> nth_error ps i = Some p -> nth_error bws i = Some bw -> l_rows p <= N.to_nat (a_height a) ->
     exists key j v tm' y, (key = up \/ key = down) /\ reading u k (source_view u k um text a0) tm (groups ++ [repeat key j]) = Ret (v, tm') /\ y + l_rows p <= N.to_nat (a_height a)
     /\ looks_line u k tm' p bw l (N.to_nat (a_left a)) (N.to_nat (a_top a) + y) (if N.to_nat (a_height a) <? n then N.to_nat (a_width a) - 1 else N.to_nat (a_width a)).
Proof.
  intros u k um text a0 U Wh El NE G groups tm Ho TP. cbv zeta.
  destruct (@run_after u k um text U (concat groups) a0 0%N [] G ltac:(lia) ltac:(rewrite app_nil_r; exact Ho)) as (s & F & _ & G1 & S1 & _). set (a := area_of a0 (concat groups)) in *.
  destruct (@drawing u k um text a U Wh El NE G1) as (n & ps & bws & La & D). exists n, ps, bws. split; [exact La|]. intros i l p bw Hi Hp Hb Hl.
  destruct La as (Ln & _ & _ & _ & Ls & _). pose proof (@rows_before_le ps i p Hp) as Lp. rewrite Ls in Lp. set (first := sum (map l_rows (firstn i ps))) in *.
  set (m := max_scroll (lines_in u k um text a) (a_height a)). set (target := N.min (N.of_nat first) m).
  assert (K : exists key j, (key = up \/ key = down) /\ fold_left (after (lines_in u k um text)) (repeat key j) (a, s) = (a, target)).
  { destruct (N.le_gt_cases s target) as [L|L].
    - exists down, (N.to_nat (target - s)). split; [right; reflexivity|]. rewrite after_downs by (fold m; lia). fold m. f_equal. lia.
    - exists up, (N.to_nat (s - target)). split; [left; reflexivity|]. rewrite after_ups. f_equal. lia. }
  destruct K as (key & j & K & FK).
  destruct (@sessions u k um text U Wh El NE (groups ++ [repeat key j]) a0 0%N tm G ltac:(lia)) as (a' & s' & tm' & F' & _ & S' & R & _ & _ & Last); [|exact TP|].
  { rewrite concat_app. cbn [concat]. rewrite app_nil_r. clear - Ho K. revert a0 Ho. induction (concat groups) as [|o ops IH]; intros a0 Ho.
    - cbn [app]. clear Ho. revert a0. induction j as [|j IH]; intros a0; [exact I|]. destruct K as [-> | ->]; (split; [exact I|apply IH]).
    - destruct o; (split; [exact (proj1 Ho)|apply IH; exact (proj2 Ho)]). }
  rewrite concat_app, fold_left_app, F in F'. cbn [concat] in F'. rewrite app_nil_r, FK in F'. injection F' as <- <-. destruct (Last ltac:(destruct groups; discriminate)) as (tm0 & out & T0 & Eo & ->).
  destruct (D target S') as (out' & Eo' & _ & H). assert (out' = out) as -> by congruence. destruct (H tm0 T0) as (H1 & _). specialize (H1 i l p bw Hi Hp Hb). cbv zeta in H1. fold first in H1.
  eexists key, j, _, _, (first - N.to_nat target). split; [exact K|]. split; [exact R|]. unfold target, m, max_scroll in *. rewrite Ln in *. split; [lia|]. apply H1; lia.
Qed.
Print Assumptions C115_resized.
Print Assumptions C115_place.
Print Assumptions C115_reach.

(** The text of [C106_example], of 6 rows, first in an area of 4 rows where a page down shows the last ones; then the area gets one more row: the last one is blank,
    until the view is asked to scroll by 0 line; then it's wider, which shows the beginning *)
Definition resized_looks (groups : list (list mv_op)) (a : Area) : list (list (char * pen)) :=
  match reading demo skin_default (source_view demo skin_default 1000 look_text (mkArea 3 2 18 4)) full_term groups with
  | Ret (_, tm) => map (fun j => look_row tm (N.to_nat (a_left a)) (N.to_nat (a_top a) + j) 10) (seq 0 (N.to_nat (a_height a)))
  | _ => []
  end.
Definition resized_groups : list (list mv_op) := [[]; [page_down]; [MvResize (mkArea 3 2 18 5)]; [MvLines 0]; [MvResize (mkArea 2 3 20 2)]].
Lemma look_source_wider : Forall (area_source demo skin_default 19) look_text.
Proof.
  assert (HN : forall c, drawn_kind (kind_of (mc_style c)) -> lead skin_default (kind_of (mc_style c)) + 2 <= 19 ->
    (kind_of (mc_style c) = KCode -> sumw (chw demo) (text_of (mc_compounds c)) <= 19) -> area_source demo skin_default 19 (MNormal c)).
  { intros c H0 H1 H2. split; [exact H0|]. intros lm rm (ls & El & Em). destruct (default_margins _ El) as [E1 E2].
    unfold margins_in in Em. rewrite E1, E2 in Em. cbn in Em. injection Em as <- <-. split; [lia|]. intros H. specialize (H2 H). lia. }
  unfold look_text. repeat (apply Forall_cons; [|]); try apply Forall_nil.
  all: first [exact I | apply HN; [split; [first [discriminate|cbn; lia]|cbn; try exact I; lia]|cbn; lia|first [discriminate|intros _; vm_compute; lia]] | split; [discriminate|cbn; lia] | split; [discriminate|split; [cbn; lia|repeat constructor]]].
Qed.
Example C115_example : good_area demo skin_default 1000 look_text (mkArea 3 2 18 4) /\ ops_good (good_area demo skin_default 1000 look_text) (mkArea 3 2 18 4) (concat resized_groups)
  /\ usual demo no_special skin_default /\ is_white demo 32%N = true /\ ellipsis_seen demo /\ Forall no_ellipsis look_text /\ t_pen full_term = pen0
  /\ let code := mkPen (AnsiValue 249) (AnsiValue 235) in let bold := mkPen Reset Reset 4 in let border := (9474%N, mkPen (AnsiValue 239) Reset 0) in let blank := (32%N, pen0) in
     let r0 := repeat (97%N, pen0) 6 ++ [blank] ++ repeat (98%N, bold) 3 in
     let r1 := repeat (99%N, code 16%N) 9 ++ [blank] in
     let r2 := repeat blank 7 ++ repeat (97%N, mkPen Reset Reset 36) 2 ++ [blank] in
     let r3 := [(98%N, code 0%N); (32%N, code 0%N); (32%N, code 0%N); (98%N, code 0%N)] ++ repeat blank 6 in
     let r4 := [(32%N, code 0%N); (99%N, code 0%N); (32%N, code 0%N); (32%N, code 0%N)] ++ repeat blank 6 in
     let r5 := [border; blank; (97%N, pen0); blank; border; (98%N, bold); (98%N, bold); blank; border; blank] in
     resized_looks (firstn 3 resized_groups) (mkArea 3 2 18 5) = [r2; r3; r4; r5; repeat blank 10]
     /\ resized_looks (firstn 4 resized_groups) (mkArea 3 2 18 5) = [r1; r2; r3; r4; r5]
     /\ resized_looks resized_groups (mkArea 2 3 20 2) = [r0; r1].
Proof.
  destruct C106_example as (E1 & E2 & E3 & E4 & E5 & E6 & _ & E8 & _).
  assert (G : forall a, a_width a = 18%N -> (1 <= a_height a)%N -> on_screen a -> (a_top a + a_height a + 7 < 65536)%N -> good_area demo skin_default 1000 look_text a).
  { intros a W H S T. unfold good_area. rewrite W. split; [discriminate|]. split; [exact H|]. split; [exact S|]. split; [exact E2|]. split; [exact E3|].
    replace (lines_in demo skin_default 1000 look_text a) with (lines_in demo skin_default 1000 look_text (mkArea 0 0 18 1)) by (unfold lines_in, area_text; rewrite W; reflexivity).
    replace (lines_in demo skin_default 1000 look_text (mkArea 0 0 18 1)) with 6%N by (vm_compute; reflexivity). lia. }
  assert (M20 : margins_not_just skin_default 20) by (intros kind ls El; destruct (default_margins _ El) as [-> ->]; discriminate).
  split; [apply G; first [reflexivity|discriminate|split; reflexivity]|]. split.
  { cbn [resized_groups concat app ops_good]. split; [exact I|]. split; [apply G; first [reflexivity|discriminate|split; reflexivity]|]. split; [reflexivity|]. split; [|exact I].
    split; [discriminate|]. split; [discriminate|]. split; [split; reflexivity|]. split; [exact M20|]. split; [exact look_source_wider|]. vm_compute. reflexivity. }
  split; [exact E1|]. split; [exact E4|]. split; [exact E5|]. split; [exact E6|]. split; [exact E8|]. cbv zeta. split; [vm_compute; reflexivity|]. split; vm_compute; reflexivity.
Qed.
