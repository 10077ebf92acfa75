(** * The example [scrollable] shows its text and nothing else, whatever is typed and however the terminal is resized (C124) *)
From Verif Require Import Base L_Base Demo M_Style M_Fit M_Wrap M_TblFit M_Text M_View S_View L_View L_Clean M_Render S_Render M_Area M_Content M_Input M_Event S_Pen S_Area S_Paint S_Read S_Look S_Whole S_Pages S_Reading S_Resized M_Scrollable S_Scrollable.
From Verif Require Import P_Render P_View P_Area P_Paint P_Look P_Pages P_Reading P_Resized.
Set Implicit Arguments.
Open Scope nat_scope.

(** The area is the column *)
Theorem C124_area : forall size, u16_size size -> view_area size = Ret (column size) /\ (a_width (column size) <= 120)%N
  /\ (forall x y, cell_in (column size) x y -> cell_in (full_screen size) x y)
  /\ let left := a_left (column size) in let right := (fst (terminal_size size) - (left + a_width (column size)))%N in (left <= right <= left + 1)%N.
Proof.
  intros size. unfold u16_size, view_area, column, full_screen. destruct (terminal_size size) as (w & h). cbn [fst snd]. intros (Hw & Hh). unfold pad_for_max_width. cbn [a_width a_left a_top a_height].
  assert (D : forall n, (n / 2 * 2 <= n < n / 2 * 2 + 2)%N) by (intros n; pose proof (N.div_mod n 2 ltac:(lia)); pose proof (N.mod_lt n 2 ltac:(lia)); lia).
  split.
  - destruct (N.leb_spec w 120) as [L|L].
    + rewrite N.min_l by exact L. rewrite N.sub_diag. reflexivity.
    + rewrite N.min_r by lia. pose proof (D (w - 120)%N). rewrite sub16_ret, bind_ret by lia. rewrite add16_ret, bind_ret by lia. rewrite sub16_ret, bind_ret by lia. do 2 f_equal; lia.
  - pose proof (D (w - N.min w 120)%N). split; [lia|]. split; [|lia]. intros x y. unfold cell_in. cbn [a_left a_top a_width a_height]. lia.
Qed.

Section App.
Context (u : unicode) (k : MadSkin) (um : nat) (text : list MLine).
Notation good := (good_area u k um text).
Notation lines := (lines_in u k um text).
Notation view a s := (mv_with (source_view u k um text a) s).
Notation looping a s := (app_loop (render_line no_special k) (mv_with (source_view u k um text a) s)).
Lemma react a s r : usual u no_special k -> good a -> (s <= lines a)%N -> (match fst r with Some (TResize _ _) => u16_size (snd r) /\ good (column (snd r)) | _ => True end) ->
  if leaves r then app_react (view a s) r = Ret None
  else exists a' s' cl, fold_left (after lines) (asks r) (a, s) = (a', s') /\ app_react (view a s) r = Ret (Some (view a' s', cl)) /\ good a' /\ (s' <= lines a')%N /\ (a' = a /\ cl = [] \/ cl = [ClearAll]).
Proof.
  intros U G Hs H. pose proof G as (_ & _ & (_ & Ht) & _). destruct r as ([e|] & size); [|cbn; exists a, s, []; auto 8].
  assert (One : forall o v, (match o with MvResize b => good b | _ => mv_op_ok (a_height a) o end) -> (match o with MvResize b => True | _ => False end -> False) -> v = mv_apply (view a s) o ->
    exists a' s' cl, fold_left (after lines) [o] (a, s) = (a', s') /\ (v' <- v ;; Ret (Some (v', @nil cmd))) = Ret (Some (view a' s', cl)) /\ good a' /\ (s' <= lines a')%N /\ (a' = a /\ cl = [] \/ cl = [ClearAll])).
  { intros o v Ho No ->. pose proof (@op_after u k um text a s o U G Hs Ho) as K. cbn [fold_left]. destruct (after lines (a, s) o) as (a', s') eqn:E. destruct K as (K1 & K2 & K3). exists a', s', [].
    split; [reflexivity|]. rewrite K1, bind_ret. split; [reflexivity|]. split; [exact K2|]. split; [exact K3|]. left. split; [|reflexivity]. unfold after in E. destruct o; try (injection E as <- _; reflexivity). exfalso. apply No. exact I. }
  destruct e as [key|m|w h|b|p].
  2,4,5: cbn; exists a, s, []; auto 8.
  - unfold leaves, asks, app_react. cbn [fst]. destruct (k_code key); try reflexivity; (apply One; [cbn [mv_op_ok]; lia|auto|reflexivity]).
  - cbn [fst snd] in H. destruct H as (Hu & Hg). unfold leaves, asks, app_react. cbn [fst snd]. rewrite (proj1 (@C124_area size Hu)), bind_ret.
    pose proof (@op_after u k um text a s (MvResize (column size)) U G Hs Hg) as K. cbn [fold_left]. destruct (after lines (a, s) (MvResize (column size))) as (a', s') eqn:E. destruct K as (K1 & K2 & K3).
    exists a', s', [ClearAll]. split; [reflexivity|]. cbn [mv_apply] in K1. injection K1 as K1. rewrite K1. auto.
Qed.
Lemma loop : usual u no_special k -> is_white u 32%N = true -> ellipsis_seen u -> Forall no_ellipsis text -> forall reads a s tm, good a -> (s <= lines a)%N -> t_pen tm = pen0 ->
  Forall (fun r => match fst r with Some (TResize _ _) => u16_size (snd r) /\ good (column (snd r)) | _ => True end) reads -> forallb (fun r => negb (leaves r)) reads = true ->
  (forall x y, ~ inside a x y -> t_cell tm x y = Nothing Reset) ->
  exists a' s' out tm0 last, fold_left (after lines) (flat_map asks reads) (a, s) = (a', s') /\ looping a s reads = Ret (Waiting (view a' s'), out) /\ good a' /\ (s' <= lines a')%N
  /\ t_pen tm0 = pen0 /\ mv_write_on (render_line no_special k) (view a' s') = Ret last /\ term_run u tm out = term_run u tm0 last /\ forall x y, ~ inside a' x y -> t_cell (term_run u tm out) x y = Nothing Reset.
Proof.
  intros U Wh El NE. induction reads as [|r reads IH]; intros a s tm G Hs TP F L B; cbn [app_loop];
    destruct (@drawing u k um text a U Wh El NE G) as (n0 & ps0 & bws0 & _ & D); destruct (D s Hs) as (out & Eo & (pic & Dr) & _); destruct (Dr tm TP) as (TP1 & C1); clear D.
  - exists a, s, out, tm, out. rewrite Eo, bind_ret. repeat (split; [first [reflexivity|assumption]|]). intros x y I. rewrite (proj2 (C1 x y) I). apply B, I.
  - rewrite Eo, bind_ret.
    inversion F as [|? ? F1 F2]; subst. cbn [forallb] in L. apply andb_prop in L as (L1 & L2). pose proof (@react a s r U G Hs F1) as K. destruct (leaves r); [discriminate L1|]. clear L1.
    destruct K as (a1 & s1 & cl & Fo & Er & G1 & S1 & Cl). rewrite Er, bind_ret.
    destruct (IH a1 s1 (term_run u (term_run u tm out) cl)) as (a' & s' & o & tm0 & la & Fo' & E' & G' & S' & T0 & El0 & Same & B'); try assumption.
    { destruct Cl as [(_ & ->)| ->]; [exact TP1|]. cbn. exact TP1. }
    { destruct Cl as [(-> & ->)| ->]; intros x y I; cbn.
      - rewrite (proj2 (C1 x y) I). apply B, I.
      - change (Nothing (p_bg (t_pen (term_run u tm out))) = Nothing Reset). rewrite TP1. reflexivity. }
    exists a', s', (out ++ cl ++ o), tm0, la. cbn [flat_map]. rewrite fold_left_app, Fo, E', bind_ret. split; [exact Fo'|]. split; [reflexivity|].
    repeat (split; [assumption|]). unfold term_run in *. rewrite !fold_left_app. split; [exact Same|exact B'].
Qed.
Lemma started : usual u no_special k -> is_white u 32%N = true -> ellipsis_seen u -> Forall no_ellipsis text -> forall size reads tm,
  Forall (fun z => u16_size z /\ good (column z)) (sizes size reads) -> forallb (fun r => negb (leaves r)) reads = true -> t_pen tm = pen0 -> empty_screen tm ->
  exists a s out tm0 last, fold_left (after lines) (flat_map asks reads) (column size, 0%N) = (a, s)
  /\ run_app (render_line no_special k) (mv_text (source_view u k um text a)) k size reads = Ret (Waiting (view a s), out) /\ good a /\ (s <= lines a)%N
  /\ t_pen tm0 = pen0 /\ mv_write_on (render_line no_special k) (view a s) = Ret last /\ term_run u tm out = term_run u tm0 last /\ forall x y, ~ inside a x y -> t_cell (term_run u tm out) x y = Nothing Reset.
Proof.
  intros U Wh El NE size reads tm F L TP B. unfold sizes in F. inversion F as [|? ? (F0 & G0) F1]; subst.
  destruct (@loop U Wh El NE reads (column size) 0%N tm G0 ltac:(lia) TP) as (a & s & out & tm0 & la & Fo & E & R); [|exact L|intros x y _; apply B|].
  { clear - F1. induction reads as [|r reads IH]; [constructor|]. cbn [flat_map] in F1. apply Forall_app in F1 as (F1 & F2). constructor; [|apply IH, F2]. destruct (fst r) as [[| | | |]|]; auto. inversion F1; assumption. }
  exists a, s, out, tm0, la. split; [exact Fo|]. split; [|exact R]. unfold run_app. rewrite (proj1 (@C124_area size F0)), bind_ret. exact E.
Qed.
Lemma last_column a s : forall reads z s0 d, fold_left (after lines) (flat_map asks reads) (column z, s0) = (a, s) -> a = column (last (sizes z reads) d).
Proof.
  unfold sizes. induction reads as [|r reads IH]; intros z s0 d Fo; [cbn in Fo |- *; congruence|]. cbn [flat_map] in *. rewrite fold_left_app in Fo. unfold asks in Fo at 2.
  destruct (fst r) as [[key|m|w h|b|p]|]; cbn [app]; try (eapply IH; exact Fo). destruct (k_code key); eapply IH; exact Fo.
Qed.
(** As long as no other key is typed than the four ones which scroll, whatever the events and the sizes of the terminal: nothing panics, the text is in the column of the terminal as it is, at the place told by the keys,
    all the lines from there are seen with their looks, and there's nothing else on the screen: nothing remains of what was shown before the resizes *)
Theorem C124_screen : usual u no_special k -> is_white u 32%N = true -> ellipsis_seen u -> Forall no_ellipsis text -> forall size reads tm,
  Forall (fun z => u16_size z /\ good (column z)) (sizes size reads) -> forallb (fun r => negb (leaves r)) reads = true -> t_pen tm = pen0 -> empty_screen tm ->
  exists a s out n ps bws, fold_left (after lines) (flat_map asks reads) (column size, 0%N) = (a, s) /\ a = column (last (sizes size reads) size)
  /\ run_app (render_line no_special k) (mv_text (source_view u k um text a)) k size reads = Ret (Waiting (view a s), out) /\ laid_in u k um text a n ps bws
  /\ t_pen (term_run u tm out) = pen0 /\ seen_from u k (term_run u tm out) text a n ps bws (N.to_nat s) /\ forall x y, ~ inside a x y -> t_cell (term_run u tm out) x y = Nothing Reset.
Proof.
  intros U Wh El NE size reads tm F L TP B. destruct (@started U Wh El NE size reads tm F L TP B) as (a & s & out & tm0 & la & Fo & E & G & Hs & T0 & El0 & Same & Out).
  destruct (@drawing u k um text a U Wh El NE G) as (n & ps & bws & La & D). destruct (D s Hs) as (o & Eo & (pic & Dr) & Se). assert (o = la) as -> by congruence.
  exists a, s, out, n, ps, bws. split; [exact Fo|]. split; [exact (@last_column a s reads size 0%N size Fo)|]. split; [exact E|]. split; [exact La|]. split; [|split; [|exact Out]]; rewrite Same; [apply (Dr tm0 T0)|apply Se, T0].
Qed.
(** Any line which isn't higher than the terminal can then be brought wholly on the screen, with only one key typed as many times as needed *)
Theorem C124_reach : usual u no_special k -> is_white u 32%N = true -> ellipsis_seen u -> Forall no_ellipsis text -> forall size reads tm,
  Forall (fun z => u16_size z /\ good (column z)) (sizes size reads) -> forallb (fun r => negb (leaves r)) reads = true -> t_pen tm = pen0 -> empty_screen tm ->
  let a := column (last (sizes size reads) size) in
  exists n ps bws, laid_in u k um text a n ps bws
  /\ forall i l p bw, nth_error text i = Some l -> nth_error ps i = Some p -> nth_error bws i = Some bw -> l_rows p <= N.to_nat (a_height a) ->
     exists c, (c = KUp \/ c = KDown) /\ forall r, (exists key, fst r = Some (TKey key) /\ k_code key = c) ->
     exists j v out y, run_app (render_line no_special k) (mv_text (source_view u k um text a)) k size (reads ++ repeat r j) = Ret (Waiting v, out) /\ y + l_rows p <= N.to_nat (a_height a)
     /\ looks_line u k (term_run u tm out) p bw l (N.to_nat (a_left a)) (N.to_nat (a_top a) + y) (if N.to_nat (a_height a) <? n then N.to_nat (a_width a) - 1 else N.to_nat (a_width a)).
Proof.
  intros U Wh El NE size reads tm F L TP B a. destruct (@started U Wh El NE size reads tm F L TP B) as (a0 & s & out & tm0 & la & Fo & E & G & Hs & _).
  assert (a0 = a) as -> by exact (@last_column a0 s reads size 0%N size Fo). destruct (@drawing u k um text a U Wh El NE G) as (n & ps & bws & La & D). exists n, ps, bws. split; [exact La|].
  intros i l p bw El1 Ep Eb Hp. destruct La as (Ln & _ & _ & _ & Sn & _). set (first := sum (map l_rows (firstn i ps))).
  assert (Hfirst : first + l_rows p <= n).
  { rewrite <- Sn. unfold first. clear - Ep. revert i Ep. induction ps as [|p0 ps IH]; intros [|i] Ep; try discriminate; cbn [firstn map sum nth_error] in *; [injection Ep as <-; lia|]. specialize (IH i Ep). lia. }
  set (h := N.to_nat (a_height a)) in *.
  (* where [j] more keys lead *)
  assert (Go : forall c o r j s', (c = KUp /\ o = MvLines (-1) \/ c = KDown /\ o = MvLines 1) -> (exists key, fst r = Some (TKey key) /\ k_code key = c) ->
    fold_left (after lines) (repeat o j) (a, s) = (a, s') -> N.to_nat s' <= first -> first + l_rows p <= N.to_nat s' + h ->
    exists v out y, run_app (render_line no_special k) (mv_text (source_view u k um text a)) k size (reads ++ repeat r j) = Ret (Waiting v, out) /\ y + l_rows p <= h
    /\ looks_line u k (term_run u tm out) p bw l (N.to_nat (a_left a)) (N.to_nat (a_top a) + y) (if h <? n then N.to_nat (a_width a) - 1 else N.to_nat (a_width a))).
  { intros c o r j s' Hc (key & Ek & Ec) Fj H1 H2.
    assert (Sz : sizes size (reads ++ repeat r j) = sizes size reads).
    { unfold sizes. f_equal. rewrite flat_map_app. rewrite <- app_nil_r. f_equal. clear - Ek. induction j as [|j IH]; [reflexivity|]. cbn [repeat flat_map]. rewrite Ek. exact IH. }
    assert (As : flat_map asks (repeat r j) = repeat o j).
    { clear - Ek Ec Hc. induction j as [|j IH]; [reflexivity|]. cbn [repeat flat_map]. rewrite IH. unfold asks. rewrite Ek, Ec. destruct Hc as [(-> & ->)|(-> & ->)]; reflexivity. }
    assert (Lv : forallb (fun r => negb (leaves r)) (reads ++ repeat r j) = true).
    { rewrite forallb_app, L. cbn [andb]. apply forallb_forall. intros x Ix. apply repeat_spec in Ix. subst x. unfold leaves. rewrite Ek, Ec. destruct Hc as [(-> & _)|(-> & _)]; reflexivity. }
    destruct (@started U Wh El NE size (reads ++ repeat r j) tm) as (a1 & s1 & o1 & tm1 & la1 & Fo1 & E1 & G1 & S1 & T1 & El2 & Same & _); [rewrite Sz; exact F|exact Lv|exact TP|exact B|].
    rewrite flat_map_app, fold_left_app, Fo, As, Fj in Fo1. injection Fo1 as <- <-. destruct (D s' S1) as (o2 & Eo & _ & Se). assert (o2 = la1) as -> by congruence.
    exists (view a s'), o1, (first - N.to_nat s'). split; [exact E1|]. split; [lia|]. rewrite Same. destruct (Se tm1 T1) as (V & _). apply (V i l p bw El1 Ep Eb H1 H2). }
  assert (Up : forall j, fold_left (after lines) (repeat (MvLines (-1)) j) (a, s) = (a, s - N.of_nat j)%N).
  { intros j. clear. revert s. induction j as [|j IH]; intros s; [cbn; f_equal; lia|]. cbn [repeat fold_left after]. rewrite IH. f_equal. unfold goes. cbn [asked]. change (-1 <? 0)%Z with true. cbv iota. lia. }
  assert (Dn : forall j, (s + N.of_nat j <= max_scroll (lines a) (a_height a))%N -> fold_left (after lines) (repeat (MvLines 1) j) (a, s) = (a, s + N.of_nat j)%N).
  { intros j. clear. revert s. induction j as [|j IH]; intros s Hj; [cbn; f_equal; lia|]. cbn [repeat fold_left after].
    assert (goes (lines a) (a_height a) s (MvLines 1) = s + 1)%N as -> by (unfold goes; cbn [asked]; change (1 <? 0)%Z with false; cbv iota zeta; lia). rewrite IH by lia. f_equal. lia. }
  destruct (Nat.le_gt_cases (N.to_nat s) first) as [C|C]; [destruct (Nat.le_gt_cases (first + l_rows p) (N.to_nat s + h)) as [C2|C2]|].
  - exists KDown. split; [right; reflexivity|]. intros r Hr. exists 0. apply (Go KDown (MvLines 1) r 0 s); auto.
  - exists KDown. split; [right; reflexivity|]. intros r Hr. exists (first + l_rows p - (N.to_nat s + h)). apply (Go KDown (MvLines 1) r _ (s + N.of_nat (first + l_rows p - (N.to_nat s + h)))%N); auto; [|lia|lia].
    apply Dn. unfold max_scroll. rewrite Ln. lia.
  - exists KUp. split; [left; reflexivity|]. intros r Hr. exists (N.to_nat s - first). apply (Go KUp (MvLines (-1)) r _ (s - N.of_nat (N.to_nat s - first))%N); auto; lia.
Qed.
(** Any other key ends the application, and nothing is written from there *)
Theorem C124_leave : forall {A} (render : A -> nat -> outcome (list cmd)) txt skin size reads v out r rest, run_app render txt skin size reads = Ret (Waiting v, out) -> leaves r = true ->
  run_app render txt skin size (reads ++ r :: rest) = Ret (Left v, out).
Proof.
  intros A render txt skin size reads v out r rest E Lr. unfold run_app in *. apply bind_Ret_inv in E as (a & Ea & E). rewrite Ea, bind_ret. revert E. generalize (mv_from txt a skin) as v0. clear Ea. revert out.
  induction reads as [|r0 reads IH]; intros out v0 E; cbn [app app_loop] in *; apply bind_Ret_inv in E as (o & Eo & E); rewrite Eo, bind_ret.
  - injection E as <- <-. assert (app_react v0 r = Ret None) as ->; [|reflexivity]. unfold app_react, leaves in *. destruct (fst r) as [[key|m|w h|b|p]|]; try discriminate Lr. destruct (k_code key); try discriminate Lr; reflexivity.
  - apply bind_Ret_inv in E as ([(v1 & cl)|] & Er & E); [|discriminate E]. rewrite Er, bind_ret. apply bind_Ret_inv in E as ((st & o2) & E2 & E). injection E as -> <-. rewrite (IH o2 v1 E2). reflexivity.
Qed.
(** Whatever is read, nothing panics, and the application is only ended by a key which isn't one of the four ones *)
Theorem C124_ends : usual u no_special k -> is_white u 32%N = true -> ellipsis_seen u -> Forall no_ellipsis text -> forall size reads, Forall (fun z => u16_size z /\ good (column z)) (sizes size reads) ->
  exists st out, run_app (render_line no_special k) (mv_text (source_view u k um text (column size))) k size reads = Ret (st, out)
  /\ match st with Waiting _ => existsb leaves reads = false | Left _ => existsb leaves reads = true end.
Proof.
  intros U Wh El NE size reads F. set (tm := mkTerm (fun _ _ => Nothing Reset) 0 0 pen0). assert (B : empty_screen tm) by (intros x y; reflexivity).
  assert (Sp : forallb (fun r => negb (leaves r)) reads = true /\ existsb leaves reads = false \/ exists a r b, reads = a ++ r :: b /\ forallb (fun r => negb (leaves r)) a = true /\ leaves r = true).
  { clear. induction reads as [|r reads IH]; [left; split; reflexivity|]. destruct (leaves r) eqn:E; [right; exists [], r, reads; auto|]. destruct IH as [(A & B)|(a & x & b & -> & A & X)].
    - left. cbn [forallb existsb]. rewrite E, A, B. split; reflexivity.
    - right. exists (r :: a), x, b. cbn [forallb]. rewrite E, A. auto. }
  destruct Sp as [(A & X)|(a & r & b & -> & A & X)].
  - destruct (@started U Wh El NE size reads tm F A eq_refl B) as (a & s & out & _ & _ & _ & E & _). exists (Waiting (view a s)), out. split; [exact E|exact X].
  - assert (Fa : Forall (fun z => u16_size z /\ good (column z)) (sizes size a)).
    { unfold sizes in *. rewrite flat_map_app in F. inversion F as [|? ? F0 F1]; subst. apply Forall_app in F1 as (F1 & _). constructor; assumption. }
    destruct (@started U Wh El NE size a tm Fa A eq_refl B) as (a0 & s & out & _ & _ & _ & E & _). exists (Left (view a0 s)), out. split; [exact (@C124_leave _ _ _ _ _ _ _ _ r b E X)|].
    rewrite existsb_app. cbn [existsb]. rewrite X. apply orb_true_r.
Qed.
End App.
Print Assumptions C124_area.
Print Assumptions C124_screen.
Print Assumptions C124_reach.
Print Assumptions C124_leave.
Print Assumptions C124_ends.

(** ** Example *)
(** The text of [C106_example] on a terminal of 20 columns and 3 rows, then of 18 columns and 4 rows *)
Unset Implicit Arguments.
Definition blank_term : term := mkTerm (fun _ _ => Nothing Reset) 0 0 pen0.
Definition key (c : KeyCode) : read_event := (Some (TKey (mkKE c 0%N Press)), None).
Definition app_reads : list read_event := [key KDown; (None, None); (Some (TFocus true), None); (Some (TResize 18 4), Some (18, 4)%N); key KPageDown; key KUp].
Definition app_rows (size : option (N * N)) (reads : list read_event) : list str :=
  match run_app (render_line no_special skin_default) (mv_text (source_view demo skin_default 1000 look_text (column size))) skin_default size reads with
  | Ret (Waiting _, out) => map (fun j => read_row (term_run demo blank_term out) 0 j 25) (seq 0 6)
  | _ => []
  end.
Lemma app_sources : good_area demo skin_default 1000 look_text (mkArea 0 0 20 3) /\ good_area demo skin_default 1000 look_text (mkArea 0 0 18 4).
Proof.
  destruct C106_example as (E1 & E2 & E3 & E4 & E5 & E6 & _ & E8 & _). assert (M20 : margins_not_just skin_default 20) by (intros kind ls El; destruct (default_margins _ El) as [-> ->]; discriminate).
  split.
  - split; [discriminate|]. split; [discriminate|]. split; [split; reflexivity|]. split; [exact M20|]. split; [exact look_source_wider|]. vm_compute. reflexivity.
  - split; [discriminate|]. split; [discriminate|]. split; [split; reflexivity|]. split; [exact E2|]. split; [exact E3|]. vm_compute. reflexivity.
Qed.
Example C124_example : usual demo no_special skin_default /\ is_white demo 32%N = true /\ ellipsis_seen demo /\ Forall no_ellipsis look_text
  /\ Forall (fun z => u16_size z /\ good_area demo skin_default 1000 look_text (column z)) (sizes (Some (20, 3)%N) app_reads) /\ forallb (fun r => negb (leaves r)) app_reads = true
  /\ t_pen blank_term = pen0 /\ empty_screen blank_term /\ column (last (sizes (Some (20, 3)%N) app_reads) None) = mkArea 0 0 18 4.
Proof.
  destruct C115_example as (_ & _ & U & Wh & El & NE & _). destruct app_sources as (G1 & G2). split; [exact U|]. split; [exact Wh|]. split; [exact El|]. split; [exact NE|].
  split; [|split; [reflexivity|split; [reflexivity|split; [intros x y; reflexivity|reflexivity]]]].
  change (sizes (Some (20, 3)%N) app_reads) with [Some (20, 3)%N; Some (18, 4)%N]. constructor; [|constructor; [|constructor]]; (split; [split; reflexivity|]); [exact G1|exact G2].
Qed.
(** A wide terminal *)
Example C124_wide : u16_size (Some (131, 4)%N) /\ view_area (Some (131, 4)%N) = Ret (mkArea 5 0 120 4).
Proof. split; [split; reflexivity|reflexivity]. Qed.
(** A terminal without any column isn't supported *)
Example C124_no_column : run_app (render_line no_special skin_default) (mv_text (source_view demo skin_default 1000 look_text (mkArea 0 0 0 4))) skin_default (Some (0, 4)%N) [] = Panic.
Proof. vm_compute. reflexivity. Qed.
(** A line lower, on the first size *)
Example C124_before : app_rows (Some (20, 3)%N) (firstn 3 app_reads) =
  ([[99; 99; 99; 99; 99; 99; 99; 99; 99; 32; 32; 32; 32; 32; 32; 32; 32; 32; 32; 9616; 32; 32; 32; 32; 32];
   [32; 32; 32; 32; 32; 32; 32; 32; 97; 97; 32; 32; 32; 32; 32; 32; 32; 32; 32; 9616; 32; 32; 32; 32; 32];
   [98; 32; 32; 98; 32; 32; 32; 32; 32; 32; 32; 32; 32; 32; 32; 32; 32; 32; 32; 9616; 32; 32; 32; 32; 32];
   repeat 32 25%nat;
   repeat 32 25%nat;
   repeat 32 25%nat])%N.
Proof. vm_compute. reflexivity. Qed.
(** After the resize, then a page down and a line up: nothing remains of what was in the last columns *)
Example C124_after : app_rows (Some (20, 3)%N) app_reads =
  ([[99; 99; 99; 99; 99; 99; 99; 99; 99; 32; 32; 32; 32; 32; 32; 32; 32; 9616; 32; 32; 32; 32; 32; 32; 32];
   [32; 32; 32; 32; 32; 32; 32; 97; 97; 32; 32; 32; 32; 32; 32; 32; 32; 9616; 32; 32; 32; 32; 32; 32; 32];
   [98; 32; 32; 98; 32; 32; 32; 32; 32; 32; 32; 32; 32; 32; 32; 32; 32; 9616; 32; 32; 32; 32; 32; 32; 32];
   [32; 99; 32; 32; 32; 32; 32; 32; 32; 32; 32; 32; 32; 32; 32; 32; 32; 9616; 32; 32; 32; 32; 32; 32; 32];
   repeat 32 25%nat;
   repeat 32 25%nat])%N.
Proof. vm_compute. reflexivity. Qed.
(** A key which doesn't scroll ends the application *)
Example C124_left : leaves (key (KChar 113)) = true
  /\ match run_app (render_line no_special skin_default) (mv_text (source_view demo skin_default 1000 look_text (mkArea 0 0 20 3))) skin_default (Some (20, 3)%N) [key KDown; key (KChar 113); key KDown] with
     | Ret (Left v, _) => mv_scroll v = 1%N | _ => False end.
Proof. split; vm_compute; reflexivity. Qed.
