(** * Properties C39 to C42, C49, C66: areas, scrollbar, text views *)
From Verif Require Import Base L_Base Demo M_Style M_Fit S_Fit L_Fit M_F64 L_F64 M_View S_View L_View.
Open Scope N_scope.

(** ** C39 The scrollbar thumb is inside its track and follows the scroll *)

(** Nothing is returned exactly when the content fits *)
Theorem C39_none_iff_fits : forall lim s c h top,
  compute_scrollbar lim s c h top = Ret None <-> c <= h.
Proof.
  intros. rewrite compute_scrollbar_eq. destruct (N.leb_spec c h); [split; auto|].
  destruct (_ && _); split; intros; discriminate || lia.
Qed.

(** For the scrolls of a view, there's no panic, the rows are ordered, the first one is in the area.
    Missing: the last row can be just below the area ([C39_last_row_refuted]) and an area of one row is too small
    ([C39_one_row_refuted]). *)
Theorem C39_inside_partial : forall lim s c h top,
  0 < h < c -> s <= c - h -> top + h < lim ->
  exists t b, compute_scrollbar lim s c h top = Ret (Some (t, b))
    /\ top <= t /\ t <= b /\ b <= top + h /\ (1 < h -> t < top + h).
Proof.
  intros lim s c h top Hh Hs Hl. rewrite compute_scrollbar_eq. destruct (N.leb_spec c h); [lia|].
  pose proof (@bot_bounds s c h top ltac:(lia) ltac:(lia) Hs).
  destruct (N.ltb_spec (top + tb_of s c h) lim); [|lia]. destruct (N.ltb_spec (bot_of s c h top) lim); [|lia].
  cbn. do 2 eexists. split; [reflexivity|]. repeat split; try lia.
  intros. pose proof (@tb_lt s c h ltac:(lia) ltac:(lia) ltac:(lia)). lia.
Qed.

(** The thumb starts at the top exactly when there's no scroll *)
Theorem C39_top_iff_not_scrolled : forall lim s c h top t b,
  compute_scrollbar lim s c h top = Ret (Some (t, b)) -> (t = top <-> s = 0).
Proof.
  intros lim s c h top t b. rewrite compute_scrollbar_eq. destruct (c <=? h); [discriminate|].
  destruct (_ && _); [|discriminate]. intros E. injection E as <- _. rewrite <- (tb_zero s c h). lia.
Qed.

(** The thumb goes down with the scroll *)
Theorem C39_monotone : forall lim s s' c h top t b t' b',
  s <= s' ->
  compute_scrollbar lim s c h top = Ret (Some (t, b)) ->
  compute_scrollbar lim s' c h top = Ret (Some (t', b')) ->
  t <= t' /\ b <= b'.
Proof.
  intros lim s s' c h top t b t' b' Hs. rewrite !compute_scrollbar_eq. destruct (c <=? h); [discriminate|].
  destruct (_ && _); [|discriminate]. intros E. injection E as <- <-.
  destruct (_ && _); [|discriminate]. intros E. injection E as <- <-.
  pose proof (tb_mono c h Hs). pose proof (bot_mono c h top Hs). lia.
Qed.

(** The thumb covers the last row when scrolled to the end... *)
Theorem C39_end_touches_bottom : forall lim c h top t b,
  0 < h -> compute_scrollbar lim (c - h) c h top = Ret (Some (t, b)) -> b >= top + h - 1.
Proof.
  intros lim c h top t b Hh. rewrite compute_scrollbar_eq. destruct (N.leb_spec c h); [discriminate|].
  destruct (_ && _); [|discriminate]. intros E. injection E as _ <-.
  pose proof (@bot_end c h top ltac:(lia) Hh). lia.
Qed.
(** ... and only then, for areas of more than 3 rows and contents which are not too tall.
    Missing: areas of at most 3 rows ([C39_bottom_small_refuted]) and contents of at least [h * (h + 1)] rows: the bound is exact
    ([C39_bottom_tall]). *)
Theorem C39_bottom_only_at_end_partial : forall lim s c h top t b,
  3 < h -> c < h * (h + 1) ->
  compute_scrollbar lim s c h top = Ret (Some (t, b)) -> b >= top + h - 1 -> s >= c - h.
Proof.
  intros lim s c h top t b Hh Hc. rewrite compute_scrollbar_eq. destruct (N.leb_spec c h); [discriminate|].
  destruct (_ && _); [|discriminate]. intros E. injection E as _ <-. intros Hb.
  destruct (N.le_gt_cases (c - h) s); [lia|]. pose proof (@bot_not_end s c h top ltac:(lia) Hh Hc). lia.
Qed.
Theorem C39_bottom_tall : forall lim c h top, 3 < h -> h * (h + 1) <= c -> top + h < lim -> exists t b,
  compute_scrollbar lim (c - h - 1) c h top = Ret (Some (t, b)) /\ b >= top + h - 1.
Proof.
  intros lim c h top Hh Hc Hl. rewrite compute_scrollbar_eq. destruct (N.leb_spec c h); [nia|].
  pose proof (@bot_bounds (c - h - 1) c h top ltac:(nia) ltac:(lia) ltac:(nia)).
  destruct (N.ltb_spec (top + tb_of (c - h - 1) c h) lim); [|lia].
  destruct (N.ltb_spec (bot_of (c - h - 1) c h top) lim); [|lia].
  cbn. do 2 eexists. split; [reflexivity|].
  assert (h - 1 <= tb_of (c - h - 1) c h); [|lia].
  unfold tb_of. cbv zeta. assert (h - 1 <= (c - h - 1) * h / c) by (apply N.div_le_lower_bound; nia).
  destruct (_ && _) eqn:E; lia.
Qed.

Example C39_example : compute_scrollbar 65536 5 40 10 3 = Ret (Some (4, 6)).
Proof. reflexivity. Qed.
Example C39_example_end : compute_scrollbar 65536 30 40 10 3 = Ret (Some (10, 12)).
Proof. reflexivity. Qed.

(** Scrolled to the end, the last row of the thumb is below the area *)
Theorem C39_last_row_refuted : exists s c h top t b,
  s <= c - h /\ compute_scrollbar 65536 s c h top = Ret (Some (t, b)) /\ ~ b < top + h.
Proof. exists 10, 20, 10, 0, 5, 10. vm_compute. split; [|split]; congruence. Qed.
(** In an area of one row, the thumb goes below the area *)
Theorem C39_one_row_refuted : exists s c h top t b,
  0 < h /\ s <= c - h /\ compute_scrollbar 65536 s c h top = Ret (Some (t, b)) /\ ~ t < top + h.
Proof. exists 1, 5, 1, 0, 1, 1. vm_compute. repeat split; congruence. Qed.
(** The thumb is at the bottom but there's still a row to see *)
Theorem C39_bottom_small_refuted : exists s c h top t b,
  0 < h /\ s < c - h /\ compute_scrollbar 65536 s c h top = Ret (Some (t, b)) /\ b >= top + h - 1.
Proof. exists 0, 4, 3, 0, 0, 2. vm_compute. repeat split; congruence. Qed.
(** The thumb of a tall content is at the bottom before the end *)
Theorem C39_bottom_tall_refuted : exists s c h top t b,
  3 < h /\ s < c - h /\ compute_scrollbar 65536 s c h top = Ret (Some (t, b)) /\ b >= top + h - 1.
Proof. exists 995, 1000, 4, 0, 3, 3. vm_compute. repeat split; congruence. Qed.

(** ** C40 Views never scroll past their content *)

Definition moved {A} (v : TextView A) (s : Z) (p : TextView A * bool) : Prop :=
  scroll (fst p) = clamp (tv_len v) (tv_height v) s
  /\ same_but_scroll v (fst p)
  /\ (snd p = true <-> scroll (fst p) <> scroll v).

Ltac tvs := unfold tv_ok, clamp, scroll_ok, max_scroll, tv_len, tv_height, content_height, same_but_scroll in *; cbn [fst snd scroll tv_with tv_area tv_lines tv_skin show_scrollbar].

Theorem C40_set_scroll : forall A (v : TextView A) n,
  scroll (fst (set_scroll v n)) = clamp (tv_len v) (tv_height v) (Z.of_N n)
  /\ snd (set_scroll v n) = scroll (fst (set_scroll v n))
  /\ same_but_scroll v (fst (set_scroll v n)).
Proof.
  intros. unfold set_scroll. tvs. destruct (N.ltb_spec (a_height (tv_area v)) (N.of_nat (length (tv_lines v)))); repeat split; lia.
Qed.
(** Missing: [i32::MIN] ([C40_min_refuted]) *)
Theorem C40_scroll_lines_partial : forall A (v : TextView A) n, tv_ok v -> (-2147483648 < n)%Z -> exists v',
  tv_try_scroll_lines v n = Ret v'
  /\ scroll v' = clamp (tv_len v) (tv_height v) (Z.of_N (scroll v) + n) /\ same_but_scroll v v'.
Proof.
  intros A v n Hv Hn. unfold tv_try_scroll_lines, I32_MIN. destruct (Z.ltb_spec n 0).
  - destruct (Z.eqb_spec n (-2147483648)); [lia|]. eexists. split; [reflexivity|]. tvs.
    destruct (N.leb_spec (scroll v) (Z.to_N (- n))); repeat split; lia.
  - eexists. split; [reflexivity|]. destruct (C40_set_scroll A v (scroll v + Z.to_N n)) as (E & _ & S).
    rewrite E. split; [|exact S]. f_equal. lia.
Qed.
(** The integers used for the pages are the ones under and above: [f64_units] is the value of a finite [f64], in 2^-1074 *)
Definition f64_units (neg : bool) (a : N) : Z := if neg then (- Z.of_N a)%Z else Z.of_N a.
Theorem C40_floor_ceil : forall neg a, exists b c, f64_floor (FFin neg a) = FFin neg b /\ f64_ceil (FFin neg a) = FFin neg c
  /\ (exists i, b = i * F64_ONE) /\ (exists i, c = i * F64_ONE)
  /\ (f64_units neg b <= f64_units neg a < f64_units neg b + Z.of_N F64_ONE)%Z
  /\ (f64_units neg c - Z.of_N F64_ONE < f64_units neg a <= f64_units neg c)%Z.
Proof.
  intros neg a. pose proof F64_ONE_pos as P.
  assert (D : exists i, trunc_down a = i * F64_ONE /\ i * F64_ONE <= a < i * F64_ONE + F64_ONE).
  { exists (a / F64_ONE). split; [reflexivity|]. revert P. generalize F64_ONE. intros m P. pose proof (N.div_mod a m ltac:(lia)) as E. pose proof (N.mod_lt a m ltac:(lia)). rewrite (N.mul_comm (a / m)). lia. }
  assert (U : exists i, trunc_up a = i * F64_ONE /\ a <= i * F64_ONE < a + F64_ONE).
  { exists ((a + (F64_ONE - 1)) / F64_ONE). split; [reflexivity|]. revert P. generalize F64_ONE. intros m P. pose proof (N.div_mod (a + (m - 1)) m ltac:(lia)) as E. pose proof (N.mod_lt (a + (m - 1)) m ltac:(lia)). rewrite (N.mul_comm (_ / m)). lia. }
  destruct D as (i & D & Di), U as (j & U & Uj). cbn [f64_floor f64_ceil]. eexists _, _. split; [reflexivity|]. split; [reflexivity|].
  destruct neg; rewrite D, U; (split; [eexists; reflexivity|]); (split; [eexists; reflexivity|]); unfold f64_units; revert Di Uj; generalize (i * F64_ONE) (j * F64_ONE) F64_ONE; intros; lia.
Qed.
Print Assumptions C40_floor_ceil.
(** Pages of a finite [f64], of [a] / 2^1074: the number of lines is the product rounded up (away from 0). As the product is rounded
    to a [f64], it's exact to 1/2^53, and there's no difference when the product is an integer. *)
Theorem C40_pages_to_lines : forall neg a h, h < 65536 -> let x := a * h in
  x <= 2147483647 * 2 ^ 1074 ->
  exists n, pages_to_lines (FFin neg a) h = (if neg then - Z.of_N n else Z.of_N n)%Z
  /\ x * 2 ^ 53 <= n * 2 ^ 1074 * 2 ^ 53 + x
  /\ (n = 0 \/ (n - 1) * 2 ^ 1074 * 2 ^ 53 < x * 2 ^ 53 + x)
  /\ forall i, x = i * 2 ^ 1074 -> n = i.
Proof.
  intros neg a h Hh x Hx. change (2 ^ 1074) with F64_ONE in *. unfold pages_to_lines. cbn [f64_mul_u16]. fold x. pose proof F64_ONE_pos as P.
  assert (R : rnd53 x <= 2147483647 * F64_ONE).
  { rewrite <- (rnd53_exact (@bits53_int 2147483647 eq_refl)). apply rnd53_mono, Hx. }
  assert (X : forall i, x = i * F64_ONE -> rnd53 x = i * F64_ONE).
  { intros i E. rewrite E. apply rnd53_exact, bits53_int. assert (i <= 2147483647) by (apply (N.mul_le_mono_pos_r _ _ _ P); lia).
    eapply N.le_lt_trans; [eassumption|]. reflexivity. }
  unfold f64_finite. destruct (N.ltb_spec (rnd53 x) (2 ^ 1024 * F64_ONE)) as [L|L].
  2: { exfalso. assert (2147483647 * F64_ONE < 2 ^ 1024 * F64_ONE); [|lia]. apply N.mul_lt_mono_pos_r; [exact P|reflexivity]. }
  destruct (rnd53_error x) as [E1 E2]. destruct (units_up_spec (rnd53 x)) as (U1 & U2 & U3). exists (units_up (rnd53 x)).
  assert (B : units_up (rnd53 x) <= 2147483647).
  { destruct (N.eq_dec (rnd53 x) 0) as [E0|E0]; [rewrite U3 by exact E0; discriminate|]. specialize (U2 ltac:(lia)).
    assert (units_up (rnd53 x) - 1 < 2147483647) by (apply (N.mul_lt_mono_pos_r F64_ONE); lia). lia. }
  split.
  - cbn [f64_lt_0]. destruct (N.ltb_spec 0 (rnd53 x)) as [H0|H0].
    + destruct neg; cbn [andb f64_floor f64_ceil f64_as_i32]; rewrite trunc_up_units; lia.
    + assert (Z0 : rnd53 x = 0) by lia. rewrite andb_false_r. cbn [f64_ceil f64_as_i32]. rewrite Z0. destruct neg; reflexivity.
  - set (n := units_up (rnd53 x)) in *. set (r := rnd53 x) in *. split; [|split].
    + etransitivity; [exact E2|]. apply N.add_le_mono_r, N.mul_le_mono_r, U1.
    + destruct (N.eq_dec r 0) as [E0|E0]; [left; apply U3, E0|right]. eapply N.lt_le_trans; [|exact E1]. apply N.mul_lt_mono_pos_r; [reflexivity|apply U2; lia].
    + intros i Ei. specialize (X i Ei). destruct (N.eq_dec i 0) as [->|Hi]; [apply U3; lia|].
      assert (0 < i * F64_ONE) by (apply N.mul_pos_pos; lia). specialize (U2 ltac:(lia)). rewrite X in U1, U2.
      apply N.mul_le_mono_pos_r in U1; [|exact P]. apply N.mul_lt_mono_pos_r in U2; [|exact P]. lia.
Qed.
(** Bigger products, and infinities, saturate. Without lines nor number of pages, nothing moves. *)
Theorem C40_pages_extremes : forall neg h,
  (forall a, 2147483648 * 2 ^ 1074 <= a * h -> pages_to_lines (FFin neg a) h = if neg then (-2147483648)%Z else 2147483647%Z)
  /\ (pages_to_lines (FInf neg) h = if h =? 0 then 0%Z else if neg then (-2147483648)%Z else 2147483647%Z)
  /\ pages_to_lines FNan h = 0%Z.
Proof.
  intros neg h. change (2 ^ 1074) with F64_ONE. split; [|split; [|reflexivity]].
  - intros a Hx. unfold pages_to_lines. cbn [f64_mul_u16]. set (x := a * h) in *. pose proof F64_ONE_pos as P.
    assert (R : 2147483648 * F64_ONE <= rnd53 x).
    { rewrite <- (rnd53_exact (@bits53_int 2147483648 eq_refl)). apply rnd53_mono, Hx. }
    unfold f64_finite. destruct (N.ltb_spec (rnd53 x) (2 ^ 1024 * F64_ONE)) as [L|L]; [|destruct neg; reflexivity].
    cbn [f64_lt_0]. destruct (N.ltb_spec 0 (rnd53 x)) as [H0|H0]; [|exfalso; assert (0 < 2147483648 * F64_ONE) by (apply N.mul_pos_pos; [reflexivity|exact P]); lia].
    destruct (units_up_spec (rnd53 x)) as (U1 & _ & _). assert (B : 2147483648 <= units_up (rnd53 x)) by (apply (N.mul_le_mono_pos_r _ _ F64_ONE P); lia).
    destruct neg; cbn [andb f64_floor f64_ceil f64_as_i32]; rewrite trunc_up_units; lia.
  - unfold pages_to_lines. cbn [f64_mul_u16]. destruct (h =? 0); [reflexivity|]. destruct neg; reflexivity.
Qed.
(** 0.1 page of 30 lines is 3 lines, though 0.1 as a [f64] is more than a tenth; but 0.07 page of 100 lines is 8 lines. *)
Example C40_pages_example : let tenth := FFin false (7205759403792794 * 2 ^ (1074 - 56)) in let x07 := FFin false (5044031582654956 * 2 ^ (1074 - 56)) in
  pages_to_lines tenth 30 = 3%Z /\ pages_to_lines x07 100 = 8%Z /\ pages_to_lines (FFin true (2 ^ 1073)) 25 = (-13)%Z.
Proof. repeat split; vm_compute; reflexivity. Qed.
Theorem C40_scroll_pages_partial : forall A (v : TextView A) q, tv_ok v ->
  (-2147483648 < pages_to_lines q (tv_height v))%Z -> exists v',
  tv_try_scroll_pages v q = Ret v'
  /\ scroll v' = clamp (tv_len v) (tv_height v) (Z.of_N (scroll v) + pages_to_lines q (tv_height v))
  /\ same_but_scroll v v'.
Proof. intros A v q Hv Hq. apply C40_scroll_lines_partial; assumption. Qed.

Theorem C40_line_up : forall A (v : TextView A), tv_ok v -> moved v (Z.of_N (scroll v) - 1) (tv_line_up v).
Proof. intros A v Hv. unfold moved, tv_line_up. tvs. destruct (N.ltb_spec 0 (scroll v)); cbn; repeat split; intros; try congruence; lia. Qed.
Theorem C40_line_down : forall A (v : TextView A), tv_ok v -> moved v (Z.of_N (scroll v) + 1) (tv_line_down v).
Proof.
  intros A v Hv. unfold moved, tv_line_down. tvs.
  destruct (N.ltb_spec (scroll v + a_height (tv_area v)) (N.of_nat (length (tv_lines v)))); cbn; repeat split; intros; try congruence; lia.
Qed.
(** Missing: a null height, for which the returned boolean is wrong ([C40_null_height_refuted]) *)
Theorem C40_page_up_partial : forall A (v : TextView A), tv_ok v -> 0 < tv_height v ->
  moved v (Z.of_N (scroll v) - Z.of_N (tv_height v)) (tv_page_up v).
Proof.
  intros A v Hv Hh. unfold moved, tv_page_up. tvs.
  destruct (N.ltb_spec (a_height (tv_area v)) (scroll v)); cbn; [repeat split; intros; try congruence; lia|].
  destruct (N.ltb_spec 0 (scroll v)); cbn; repeat split; intros; try congruence; lia.
Qed.
Theorem C40_page_down_partial : forall A (v : TextView A), tv_ok v -> 0 < tv_height v ->
  moved v (Z.of_N (scroll v) + Z.of_N (tv_height v)) (tv_page_down v).
Proof.
  intros A v Hv Hh. unfold moved, tv_page_down. tvs.
  destruct (N.ltb_spec (scroll v + 2 * a_height (tv_area v)) (N.of_nat (length (tv_lines v)))); cbn [fst snd scroll tv_with tv_area tv_lines tv_skin show_scrollbar];
    [repeat split; intros; try congruence; lia|].
  destruct (N.ltb_spec (scroll v + a_height (tv_area v)) (N.of_nat (length (tv_lines v)))); cbn [fst snd scroll tv_with tv_area tv_lines tv_skin show_scrollbar];
    repeat split; intros; try congruence; lia.
Qed.
(** What every key does: there are four of them, without modifier *)
Theorem C40_keys_partial : forall A (v : TextView A) m codes, tv_ok v -> 0 < tv_height v ->
  moved v (Z.of_N (scroll v) +
    match m, codes with
    | 0%N, [KUp] => -1
    | 0%N, [KDown] => 1
    | 0%N, [KPageUp] => - Z.of_N (tv_height v)
    | 0%N, [KPageDown] => Z.of_N (tv_height v)
    | _, _ => 0
    end)%Z (tv_apply_key v (mkKey m codes)).
Proof.
  intros A v m codes Hv Hh. unfold tv_apply_key. cbn [kmods kcodes].
  assert (Hid : moved v (Z.of_N (scroll v) + 0) (v, false)).
  { unfold moved. tvs. repeat split; try congruence; lia. }
  destruct m as [|p]; cbn [negb N.eqb]; [|exact Hid].
  destruct codes as [|k [|k2 codes]]; [exact Hid| |destruct k; exact Hid].
  destruct k; try exact Hid.
  - exact (C40_line_up A v Hv).
  - exact (C40_line_down A v Hv).
  - exact (C40_page_up_partial A v Hv Hh).
  - exact (C40_page_down_partial A v Hv Hh).
Qed.

(** The arguments which aren't [i32::MIN] *)
Definition tv_op_ok (h : N) (o : tv_op) : Prop :=
  match o with
  | TvLines n => (-2147483648 < n)%Z
  | TvPages q => (-2147483648 < pages_to_lines q h)%Z
  | _ => True
  end.
Lemma clamp_ok c h s : scroll_ok c h (clamp c h s).
Proof. unfold scroll_ok, clamp. lia. Qed.
Theorem C40_each_call_partial : forall A (v : TextView A) o, tv_ok v -> 0 < tv_height v -> tv_op_ok (tv_height v) o ->
  exists v' b, tv_apply v o = Ret (v', b) /\ tv_ok v' /\ same_but_scroll v v'
    /\ (forall x, b = Some x -> x = true <-> scroll v' <> scroll v).
Proof.
  intros A v o Hv Hh Ho.
  assert (K : forall s p, moved v s p -> exists v' b, Ret (fst p, Some (snd p)) = Ret (v', b) /\ tv_ok v' /\ same_but_scroll v v'
    /\ (forall x, b = Some x -> x = true <-> scroll v' <> scroll v)).
  { intros s p (E & S & B). do 2 eexists. split; [reflexivity|]. split; [|split; [exact S|intros x Ex; injection Ex as <-; exact B]].
    unfold tv_ok, tv_len, tv_height. destruct S as (<- & <- & _). rewrite E. apply clamp_ok. }
  assert (L : forall v' s, scroll v' = clamp (tv_len v) (tv_height v) s -> same_but_scroll v v' -> exists w b, 
    Ret (v', @None bool) = Ret (w, b) /\ tv_ok w /\ same_but_scroll v w /\ (forall x, b = Some x -> x = true <-> scroll w <> scroll v)).
  { intros v' s E S. do 2 eexists. split; [reflexivity|]. split; [|split; [exact S|discriminate]].
    unfold tv_ok, tv_len, tv_height. destruct S as (<- & <- & _). rewrite E. apply clamp_ok. }
  destruct o as [n|n|q| | | | |k]; cbn [tv_apply].
  - destruct (C40_set_scroll A v n) as (E & _ & S). exact (L _ _ E S).
  - destruct (C40_scroll_lines_partial A v n Hv Ho) as (v' & -> & E & S). rewrite bind_ret. exact (L _ _ E S).
  - destruct (C40_scroll_pages_partial A v q Hv Ho) as (v' & -> & E & S). rewrite bind_ret. exact (L _ _ E S).
  - exact (K _ _ (C40_line_up A v Hv)).
  - exact (K _ _ (C40_line_down A v Hv)).
  - exact (K _ _ (C40_page_up_partial A v Hv Hh)).
  - exact (K _ _ (C40_page_down_partial A v Hv Hh)).
  - destruct k as [m codes]. exact (K _ _ (C40_keys_partial A v m codes Hv Hh)).
Qed.
(** From a new view *)
Theorem C40_histories_partial : forall A a (lines : list A) k ops,
  0 < a_height a -> Forall (tv_op_ok (a_height a)) ops ->
  exists v, tv_run (tv_from a lines k) ops = Ret v /\ tv_ok v /\ tv_lines v = lines /\ tv_area v = a.
Proof.
  intros A a lines k ops Hh Ho.
  assert (G : forall v, tv_ok v -> tv_area v = a -> tv_lines v = lines ->
    exists w, tv_run v ops = Ret w /\ tv_ok w /\ tv_lines w = lines /\ tv_area w = a).
  2:{ apply G; try reflexivity. unfold tv_ok, scroll_ok. cbn. lia. }
  induction Ho as [|o ops Ho _ IH]; intros v Hv Ha Hl; cbn [tv_run].
  - eauto.
  - destruct (@C40_each_call_partial A v o Hv) as (v' & b & -> & Hv' & S & _); [unfold tv_height; rewrite Ha; assumption..|].
    rewrite bind_ret. destruct S as (S1 & S2 & _). apply IH; congruence.
Qed.

(** The same for a [MadView] which isn't resized *)
Definition mv_len {A} (v : MadView A) : N := N.of_nat (length (mv_text v (a_width (mv_area v) - 1))).
Definition mv_ok {A} (v : MadView A) : Prop := scroll_ok (mv_len v) (a_height (mv_area v)) (mv_scroll v).
Definition mv_op_ok (h : N) (o : mv_op) : Prop :=
  match o with
  | MvLines n => (-2147483648 < n)%Z
  | MvPages n => (-2147483648 < n * Z.of_N h < 2147483648)%Z
  | MvKey _ => True
  | MvResize _ => False
  end.
Definition mv_same_but_scroll {A} (v w : MadView A) : Prop :=
  mv_text v = mv_text w /\ mv_area v = mv_area w /\ mv_skin v = mv_skin w.
Theorem C40_mad_lines_partial : forall A (v : MadView A) n, mv_ok v -> 0 < a_width (mv_area v) -> (-2147483648 < n)%Z ->
  exists v', mv_try_scroll_lines v n = Ret v'
  /\ mv_scroll v' = clamp (mv_len v) (a_height (mv_area v)) (Z.of_N (mv_scroll v) + n) /\ mv_same_but_scroll v v'.
Proof.
  intros A v n Hv Hw Hn. unfold mv_try_scroll_lines, mv_text_view. rewrite subN_ret by lia. rewrite !bind_ret.
  destruct (C40_scroll_lines_partial A (mkTV (mv_area v) (mv_text v (a_width (mv_area v) - 1)) (mv_skin v) (mv_scroll v) true) n Hv Hn)
    as (v' & -> & E & S). rewrite bind_ret. eexists. split; [reflexivity|]. split; [exact E|]. repeat split.
Qed.
Theorem C40_mad_pages_partial : forall A (v : MadView A) n, mv_ok v -> 0 < a_width (mv_area v) ->
  (-2147483648 < n * Z.of_N (a_height (mv_area v)) < 2147483648)%Z ->
  exists v', mv_try_scroll_pages v n = Ret v'
  /\ mv_scroll v' = clamp (mv_len v) (a_height (mv_area v)) (Z.of_N (mv_scroll v) + n * Z.of_N (a_height (mv_area v)))
  /\ mv_same_but_scroll v v'.
Proof.
  intros A v n Hv Hw Hn. unfold mv_try_scroll_pages, I32_MIN, I32_MAX. cbv zeta.
  destruct ((_ <=? _) && (_ <=? _))%Z eqn:E; [|lia]. apply C40_mad_lines_partial; lia || assumption.
Qed.
Theorem C40_mad_keys_partial : forall A (v : MadView A) k, mv_ok v -> 0 < a_width (mv_area v) -> 0 < a_height (mv_area v) ->
  exists v' b, mv_apply_key v k = Ret (v', b) /\ mv_ok v' /\ mv_same_but_scroll v v'
    /\ (b = true <-> mv_scroll v' <> mv_scroll v)
    /\ forall tv, mv_text_view v = Ret tv -> mv_scroll v' = scroll (fst (tv_apply_key tv k)).
Proof.
  intros A v [m codes] Hv Hw Hh. unfold mv_apply_key, mv_text_view. rewrite subN_ret by lia. rewrite !bind_ret.
  set (tv := mkTV _ _ _ _ _).
  pose proof (C40_keys_partial A tv m codes Hv Hh) as (E & S & B).
  destruct (tv_apply_key tv (mkKey m codes)) as [tv' b] eqn:Ek. cbn [fst snd] in *. 
  destruct b; do 2 eexists; (split; [reflexivity|]); cbn [fst].
  - split; [|split; [repeat split|split; [split; [intros _; apply B; reflexivity|reflexivity]|]]].
    + unfold mv_ok, mv_len. cbn. rewrite E. apply clamp_ok.
    + intros ? Et. injection Et as <-. fold tv. rewrite Ek. reflexivity.
  - assert (Es : scroll tv' = scroll tv). { destruct (N.eq_dec (scroll tv') (scroll tv)) as [|H]; [assumption|]. apply B in H. discriminate. }
    split; [exact Hv|]. split; [repeat split|]. split; [split; [discriminate|congruence]|].
    intros ? Et. injection Et as <-. fold tv. rewrite Ek. cbn [fst]. rewrite Es. reflexivity.
Qed.
Theorem C40_mad_histories_partial : forall A text a k ops,
  0 < a_width a -> 0 < a_height a -> Forall (mv_op_ok (a_height a)) ops ->
  exists v, @mv_run A (mv_from text a k) ops = Ret v /\ mv_ok v /\ mv_area v = a.
Proof.
  intros A text a k ops Hw Hh Ho.
  assert (G : forall v : MadView A, mv_ok v -> mv_area v = a -> exists w, mv_run v ops = Ret w /\ mv_ok w /\ mv_area w = a).
  2:{ apply G; try reflexivity. unfold mv_ok, scroll_ok. cbn. lia. }
  assert (L : forall (v v' : MadView A) s, mv_area v = a -> mv_same_but_scroll v v' ->
     mv_scroll v' = clamp (mv_len v) (a_height (mv_area v)) s -> mv_ok v' /\ mv_area v' = a).
  { intros v v' s Ha (S1 & S2 & _) E. split; [|congruence]. unfold mv_ok, mv_len. rewrite <- S1, <- S2, E. apply clamp_ok. }
  induction Ho as [|o ops Ho _ IH]; intros v Hv Ha; cbn [mv_run].
  - eauto.
  - destruct o as [n|n|key|b]; cbn [mv_apply] in *.
    + destruct (C40_mad_lines_partial A v n Hv ltac:(congruence) Ho) as (v' & -> & E & S). rewrite bind_ret.
      destruct (L v v' _ Ha S E). apply IH; assumption.
    + destruct (C40_mad_pages_partial A v n Hv ltac:(congruence)) as (v' & -> & E & S); [rewrite Ha; exact Ho|]. rewrite bind_ret.
      destruct (L v v' _ Ha S E). apply IH; assumption.
    + destruct (C40_mad_keys_partial A v key Hv ltac:(congruence) ltac:(congruence)) as (v' & b & -> & Hv' & (_ & S & _) & _).
      rewrite !bind_ret. apply IH; congruence.
    + destruct Ho.
Qed.
(** A resize keeps the text, takes the area, and goes back to the top when the width changes *)
Theorem C40_mad_resize_partial : forall A (v : MadView A) a,
  mv_area (mv_resize v a) = a /\ mv_text (mv_resize v a) = mv_text v /\ mv_skin (mv_resize v a) = mv_skin v
  /\ (a_width a <> a_width (mv_area v) -> mv_scroll (mv_resize v a) = 0 /\ mv_ok (mv_resize v a))
  /\ (a_width a = a_width (mv_area v) -> mv_scroll (mv_resize v a) = mv_scroll v
        /\ (mv_ok v -> a_height a <= a_height (mv_area v) -> mv_ok (mv_resize v a))).
Proof.
  intros A v a. unfold mv_resize. destruct (area_eqb a (mv_area v)) eqn:E.
  - assert (a = mv_area v) as -> by (destruct a, (mv_area v); unfold area_eqb in E; cbn in E; f_equal; lia).
    repeat split; intros; try congruence.
  - destruct (N.eqb_spec (a_width a) (a_width (mv_area v))) as [Ew|Ew]; cbn.
    + repeat split; intros; try congruence. unfold mv_ok, mv_len, scroll_ok, max_scroll in *. cbn. rewrite Ew. lia.
    + repeat split; intros; try congruence. unfold mv_ok, scroll_ok, max_scroll. cbn. lia.
Qed.

Definition demo_area : Area := mkArea 0 0 20 10.
Definition demo_tv (h : N) (len : nat) (s : N) : TextView nat := mkTV (mkArea 0 0 20 h) (seq 0 len) skin_default s true.
Example C40_example :
  (v <- tv_run (demo_tv 10 25 0) [TvKey (mkKey 0 [KPageDown]); TvLines (-3); TvPages (FFin false (2 ^ 1073)); TvLines 100; TvLineUp] ;; Ret (scroll v))
  = Ret 14.
Proof. vm_compute. reflexivity. Qed.

(** [try_scroll_lines(i32::MIN)] panics *)
Theorem C40_min_refuted : exists v : TextView nat, tv_ok v /\ tv_try_scroll_lines v (-2147483648) = Panic.
Proof. exists (demo_tv 10 25 0). split; [vm_compute; congruence|reflexivity]. Qed.
(** so does going up of too many pages *)
Theorem C40_pages_refuted : exists (v : TextView nat) q, tv_ok v /\ tv_try_scroll_pages v q = Panic.
Proof. exists (demo_tv 10 25 0), (FFin true (1000000000 * 2 ^ 1074)). split; [vm_compute; congruence|vm_compute; reflexivity]. Qed.
(** In an area of null height, the view didn't move but the returned boolean is true *)
Theorem C40_null_height_refuted : exists v : TextView nat, tv_ok v /\ tv_page_down v = (v, true).
Proof. exists (demo_tv 0 25 5). split; [vm_compute; congruence|reflexivity]. Qed.
(** The same when going up *)
Theorem C40_null_height_up_refuted : exists v : TextView nat, tv_ok v /\ tv_page_up v = (v, true).
Proof. exists (demo_tv 0 25 5). split; [vm_compute; congruence|reflexivity]. Qed.
Definition demo_mv : MadView nat := mv_from (fun _ => seq 0 25) demo_area skin_default.
(** When a [MadView] gets taller, it keeps a scroll past the end *)
Theorem C40_mad_resize_refuted : exists ops v, mv_run demo_mv ops = Ret v /\ ~ mv_ok v.
Proof.
  exists [MvLines 100; MvResize (mkArea 0 0 20 20)]. eexists. split; [vm_compute; reflexivity|]. vm_compute. congruence.
Qed.
(** Too many pages panic *)
Theorem C40_mad_pages_refuted : exists n, (-2147483648 <= n <= 2147483647)%Z /\ mv_try_scroll_pages demo_mv n = Panic.
Proof. exists 1000000000%Z. split; [lia|vm_compute; reflexivity]. Qed.
(** A null width panics *)
Theorem C40_mad_null_width_refuted : exists (v : MadView nat) n, mv_try_scroll_lines v n = Panic.
Proof. exists (mv_from (fun _ => seq 0 25) (mkArea 0 0 0 10) skin_default), 1%Z. reflexivity. Qed.

(** ** C41 Paging goes through the whole content *)

Definition page_downs {A} (n : nat) (v : TextView A) : TextView A := iter (fun v => fst (tv_page_down v)) n v.
Lemma page_downs_scroll {A} n : forall v : TextView A, tv_ok v -> 0 < tv_height v ->
  scroll (page_downs n v) = N.min (scroll v + N.of_nat n * tv_height v) (max_scroll (tv_len v) (tv_height v))
  /\ same_but_scroll v (page_downs n v).
Proof.
  induction n as [|n IH]; intros v Hv Hh.
  - cbn. split; [|repeat split]. unfold tv_ok, scroll_ok in Hv. lia.
  - unfold page_downs. cbn [iter]. fold (page_downs n (fst (tv_page_down v))).
    destruct (C40_page_down_partial A v Hv Hh) as (E & S & _).
    destruct (IH (fst (tv_page_down v))) as (E' & S').
    + unfold tv_ok, tv_len, tv_height. rewrite E. destruct S as (<- & <- & _). apply clamp_ok.
    + unfold tv_height. destruct S as (<- & _). exact Hh.
    + rewrite E', E. unfold tv_len, tv_height in *. split.
      * destruct S as (<- & <- & _). unfold clamp. set (m := max_scroll _ _). lia.
      * unfold same_but_scroll in *. intuition congruence.
Qed.
(** From the top, enough page downs reach the end, and each line has been displayed *)
Theorem C41_page_downs : forall A (v : TextView A), scroll v = 0 -> 0 < tv_height v ->
  scroll (page_downs (N.to_nat (tv_len v)) v) = max_scroll (tv_len v) (tv_height v)
  /\ forall line, line < tv_len v -> exists n, line_visible (tv_height v) (scroll (page_downs n v)) line.
Proof.
  intros A v H0 Hh.
  assert (Hv : tv_ok v) by (unfold tv_ok, scroll_ok; lia).
  split.
  - rewrite (proj1 (page_downs_scroll _ v Hv Hh)). unfold max_scroll. nia.
  - intros line Hl. exists (N.to_nat (line / tv_height v)). unfold line_visible.
    rewrite (proj1 (page_downs_scroll _ v Hv Hh)), H0, N2Nat.id. unfold max_scroll.
    pose proof (N.div_mod line (tv_height v) ltac:(lia)). pose proof (N.mod_lt line (tv_height v) ltac:(lia)).
    set (q := line / tv_height v) in *. set (r := line mod tv_height v) in *. nia.
Qed.
Lemma page_up_eq {A} (v : TextView A) : fst (tv_page_up v) = tv_with v (scroll v - tv_height v).
Proof.
  unfold tv_page_up, tv_height. cbv zeta. destruct (N.ltb_spec (a_height (tv_area v)) (scroll v)); [reflexivity|].
  destruct (N.ltb_spec 0 (scroll v)); cbn [fst]; [f_equal; lia|]. rewrite <- (tv_with_id v) at 1. f_equal. lia.
Qed.
Lemma page_down_eq {A} (v : TextView A) : tv_ok v ->
  fst (tv_page_down v) = tv_with v (N.min (scroll v + tv_height v) (tv_len v - tv_height v)).
Proof.
  unfold tv_ok, scroll_ok, max_scroll, tv_page_down. cbv zeta. change (content_height v) with (tv_len v). fold (tv_height v). intros Hv.
  destruct (N.ltb_spec (scroll v + 2 * tv_height v) (tv_len v)); [cbn [fst]; f_equal; lia|].
  destruct (N.ltb_spec (scroll v + tv_height v) (tv_len v)); [cbn [fst]; f_equal; lia|].
  cbn [fst]. rewrite <- (tv_with_id v) at 1. f_equal. lia.
Qed.
Lemma tv_with_with {A} (v : TextView A) s t : tv_with (tv_with v s) t = tv_with v t.
Proof. reflexivity. Qed.
(** Page up after page down, and page down after page up, when they move of a page *)
Theorem C41_page_up_undoes : forall A (v : TextView A), scroll v + 2 * tv_height v <= tv_len v ->
  fst (tv_page_up (fst (tv_page_down v))) = v.
Proof.
  intros A v Hs. rewrite page_down_eq by (unfold tv_ok, scroll_ok, max_scroll; lia). rewrite page_up_eq, tv_with_with.
  cbn [scroll tv_with]. change (tv_height (tv_with v _)) with (tv_height v). 
  transitivity (tv_with v (scroll v)); [|apply tv_with_id]. f_equal. lia.
Qed.
Theorem C41_page_down_undoes : forall A (v : TextView A), tv_ok v -> tv_height v <= scroll v ->
  fst (tv_page_down (fst (tv_page_up v))) = v.
Proof.
  intros A v Hv Hs. rewrite page_up_eq. rewrite page_down_eq.
  - rewrite tv_with_with. cbn [scroll tv_with]. change (tv_height (tv_with v _)) with (tv_height v).
    change (tv_len (tv_with v _)) with (tv_len v). 
    transitivity (tv_with v (scroll v)); [|apply tv_with_id].
    unfold tv_ok, scroll_ok, max_scroll in Hv. f_equal. lia.
  - unfold tv_ok, scroll_ok, max_scroll in *. cbn [scroll tv_with]. change (tv_height (tv_with v _)) with (tv_height v).
    change (tv_len (tv_with v _)) with (tv_len v). lia.
Qed.
(** [try_scroll_pages] with a whole number of pages moves as much *)
Theorem C41_whole_pages : forall (n : Z) h, h < 65536 ->
  (-2147483648 <= n * Z.of_N h <= 2147483647)%Z -> pages_to_lines (FFin (n <? 0)%Z (Z.abs_N n * 2 ^ 1074)) h = (n * Z.of_N h)%Z.
Proof.
  intros n h Hh H. assert (A : Z.abs_N n * 2 ^ 1074 * h = (Z.abs_N n * h) * 2 ^ 1074) by lia. assert (Ea : Z.of_N (Z.abs_N n * h) = Z.abs (n * Z.of_N h)) by (rewrite Z.abs_mul; lia).
  destruct (Z.eq_dec (n * Z.of_N h) (-2147483648)) as [E|E].
  - destruct (C40_pages_extremes (n <? 0)%Z h) as (X & _). rewrite X; [destruct (Z.ltb_spec n 0); nia|]. rewrite A. apply N.mul_le_mono_r. lia.
  - destruct (@C40_pages_to_lines (n <? 0)%Z (Z.abs_N n * 2 ^ 1074) h Hh) as (k & -> & _ & _ & X); [rewrite A; apply N.mul_le_mono_r; lia|]. rewrite (X _ A).
    destruct (Z.ltb_spec n 0); nia.
Qed.
Example C41_example : map (fun n => scroll (page_downs n (demo_tv 10 25 0))) [0; 1; 2; 3]%nat = [0; 10; 15; 15].
Proof. reflexivity. Qed.
Example C41_example_undo : fst (tv_page_up (fst (tv_page_down (demo_tv 10 25 3)))) = demo_tv 10 25 3.
Proof. reflexivity. Qed.

(** ** C42 A scrollbar is displayed exactly when there's something to scroll *)

(** Missing: contents of more than 65535 lines ([C42_tall_refuted]). The input field is in [P_Input]. *)
Theorem C42_text_view_partial : forall A (v : TextView A),
  show_scrollbar v = true -> tv_len v < 65536 -> tv_ok v -> tv_height v = 0 \/ a_top (tv_area v) + tv_height v < 65536 ->
  a_top (tv_area v) + 1 < 65536 ->
  exists sb, tv_scrollbar v = Ret sb /\ (sb <> None <-> tv_height v < tv_len v).
Proof.
  intros A v Hs Hl Hv Ht Ht1. unfold tv_scrollbar. rewrite Hs. unfold area_scrollbar. change (content_height v) with (tv_len v).
  unfold tv_ok, scroll_ok, max_scroll in Hv. rewrite !N.mod_small by (unfold U16; lia). fold (tv_height v).
  destruct (N.le_gt_cases (tv_len v) (tv_height v)) as [L|L].
  - exists None. split; [apply C39_none_iff_fits; exact L|]. split; [congruence|lia].
  - destruct (N.eq_dec (tv_height v) 0) as [Z|NZ].
    + eexists (Some _). split; [|split; [lia|discriminate]]. rewrite compute_scrollbar_eq, Z.
      destruct (N.leb_spec (tv_len v) 0); [lia|].
      assert (Htb : tb_of (scroll v) (tv_len v) 0 <= 1).
      { unfold tb_of. rewrite N.mul_0_r. cbv zeta. replace (0 / tv_len v) with 0 by (destruct (tv_len v); reflexivity). destruct (_ && _); lia. }
      assert (B : bot_of (scroll v) (tv_len v) 0 (a_top (tv_area v)) = a_top (tv_area v) + tb_of (scroll v) (tv_len v) 0).
      { unfold bot_of. rewrite andb_comm. cbn [N.ltb N.compare andb]. rewrite N.mul_0_l. replace (0 / tv_len v) with 0 by (destruct (tv_len v); reflexivity). lia. }
      rewrite B. destruct (N.ltb_spec (a_top (tv_area v) + tb_of (scroll v) (tv_len v) 0) U16); [|unfold U16 in *; lia]. reflexivity.
    + destruct (C39_inside_partial U16 (scroll v) (tv_len v) (tv_height v) (a_top (tv_area v))) as (t & b & -> & _); unfold U16; try lia.
      eexists. split; [reflexivity|]. split; [lia|discriminate].
Qed.
Theorem C42_hidden : forall A (v : TextView A), show_scrollbar v = false -> tv_scrollbar v = Ret None.
Proof. intros A v H. unfold tv_scrollbar. rewrite H. reflexivity. Qed.
Example C42_example : tv_scrollbar (demo_tv 10 25 15) = Ret (Some (6, 10)).
Proof. reflexivity. Qed.

(** With 65536 lines or a little more, there's no scrollbar *)
Theorem C42_tall_refuted : exists v : TextView unit,
  show_scrollbar v = true /\ tv_ok v /\ tv_height v < tv_len v /\ tv_scrollbar v = Ret None.
Proof.
  exists (mkTV demo_area (repeat tt (N.to_nat 65540)) skin_default 0 true).
  assert (E : tv_len (mkTV demo_area (repeat tt (N.to_nat 65540)) skin_default 0 true) = 65540)
    by (unfold tv_len; cbn [tv_lines]; rewrite repeat_length; apply N2Nat.id).
  split; [reflexivity|]. unfold tv_ok, scroll_ok. rewrite E. split; [cbn; lia|]. split; [cbn; lia|].
  unfold tv_scrollbar. cbn [show_scrollbar]. change (content_height ?v) with (tv_len v). rewrite E. reflexivity.
Qed.

(** ** C49 Padding an area stays inside it *)

Theorem C49_contains_partial : forall a x y, on_screen a -> exists b, contains a x y = Ret b /\ (b = true <-> cell_in a x y).
Proof.
  intros a x y [Hx Hy]. unfold contains, cell_in.
  destruct (N.leb_spec (a_left a) x); cbn [negb]; [|exists false; split; [reflexivity|split; [discriminate|lia]]].
  rewrite add16_ret, bind_ret by assumption. destruct (N.ltb_spec x (a_left a + a_width a)); cbn [negb]; [|exists false; split; [reflexivity|split; [discriminate|lia]]].
  destruct (N.leb_spec (a_top a) y); cbn [negb]; [|exists false; split; [reflexivity|split; [discriminate|lia]]].
  rewrite add16_ret, bind_ret by assumption. eexists. split; [reflexivity|]. lia.
Qed.
Theorem C49_edges_partial : forall a, on_screen a ->
  exists r b, right a = Ret r /\ bottom a = Ret b /\
    forall x y, cell_in a x y <-> a_left a <= x < r /\ a_top a <= y < b.
Proof.
  intros a [Hx Hy]. unfold right, bottom. rewrite !add16_ret by assumption. do 2 eexists. split; [reflexivity|]. split; [reflexivity|].
  intros x y. reflexivity.
Qed.
(** The padded area is made of the cells which are at more than the padding from the borders.
    Missing: the padding must fit ([C49_pad_too_big_refuted]). *)
Theorem C49_pad_partial : forall a dx dy, on_screen a -> 2 * dx <= a_width a -> 2 * dy <= a_height a ->
  exists p, pad a dx dy = Ret p /\ inside p a
    /\ (forall x y, cell_in p x y <->
          (a_left a + dx <= x /\ x + dx < a_left a + a_width a) /\ (a_top a + dy <= y /\ y + dy < a_top a + a_height a))
    /\ a_width p + 2 * dx = a_width a /\ a_height p + 2 * dy = a_height a.
Proof.
  intros a dx dy [Hx Hy] Hw Hh. unfold pad. rewrite !add16_ret, !bind_ret by lia.
  rewrite !mul16_ret, !bind_ret by lia. rewrite !sub16_ret, !bind_ret by lia.
  rewrite sub16_ret, bind_ret by lia. eexists. split; [reflexivity|]. unfold inside, cell_in. cbn [a_left a_top a_width a_height].
  split; [intros; lia|]. split; [intros; lia|lia].
Qed.
Theorem C49_max_width_partial : forall a m, on_screen a ->
  exists p, pad_for_max_width a m = Ret p /\ inside p a
    /\ a_width p = N.min (a_width a) m /\ a_top p = a_top a /\ a_height p = a_height a
    /\ (let before := a_left p - a_left a in
        let after := a_left a + a_width a - (a_left p + a_width p) in before <= after <= before + 1).
Proof.
  intros a m [Hx Hy]. unfold pad_for_max_width. destruct (N.leb_spec (a_width a) m).
  - exists a. split; [reflexivity|]. unfold inside. repeat split; try lia; apply H0.
  - rewrite sub16_ret, bind_ret by lia.
    pose proof (N.div_mod (a_width a - m) 2 ltac:(lia)). pose proof (N.mod_lt (a_width a - m) 2 ltac:(lia)).
    set (q := (a_width a - m) / 2) in *. set (r := (a_width a - m) mod 2) in *.
    rewrite add16_ret, bind_ret by lia. rewrite sub16_ret, bind_ret by lia. eexists. split; [reflexivity|].
    unfold inside, cell_in. cbn [a_left a_top a_width a_height]. repeat split; lia.
Qed.
Theorem C49_uninitialized : forall x y, cell_in area_uninitialized x y <-> x < 5 /\ y = 0.
Proof. intros. unfold cell_in, area_uninitialized. cbn. lia. Qed.
Example C49_example : pad (mkArea 2 3 20 10) 3 1 = Ret (mkArea 5 4 14 8).
Proof. reflexivity. Qed.
Example C49_example_max : pad_for_max_width (mkArea 2 3 20 10) 15 = Ret (mkArea 4 3 15 10).
Proof. reflexivity. Qed.
Example C49_example_contains : contains (mkArea 2 3 20 10) 21 12 = Ret true /\ contains (mkArea 2 3 20 10) 22 12 = Ret false.
Proof. split; reflexivity. Qed.

(** "this will crash if padding is too big. feature?" *)
Theorem C49_pad_too_big_refuted : exists a dx dy, on_screen a /\ pad a dx dy = Panic.
Proof. exists (mkArea 2 3 20 10), 11, 0. split; [vm_compute; split; reflexivity|reflexivity]. Qed.
(** An area reaching the last [u16] can't be asked about its last column *)
Theorem C49_overflow_refuted : exists a x y,
  a_left a < 65536 /\ a_width a < 65536 /\ a_top a < 65536 /\ a_height a < 65536 /\ cell_in a x y /\ contains a x y = Panic.
Proof. exists (mkArea 65535 0 1 1), 65535, 0. vm_compute. repeat split; congruence. Qed.

(** ** C66 A text view draws exactly its area *)

(** The row [j] of the area: the line [scroll + j], or spaces when there's none, then the cell of the scrollbar *)
Definition row_ok {A} (render : A -> nat -> outcome (list cmd)) (v : TextView A) (w : N) (sb : option (N * N)) (j : N) (row : list cmd) : Prop :=
  exists content bar, row = MoveTo (a_left (tv_area v)) (a_top (tv_area v) + j) :: content ++ bar
  /\ match nth_error (tv_lines v) (N.to_nat (scroll v + j)) with
     | Some l => render l (N.to_nat w) = Ret content
     | None => out_text content = repeat 32 (N.to_nat w)
               /\ Forall (fun c => exists s, c = Styled (ls_cs (paragraph (tv_skin v))) s) content
     end
  /\ match sb with
     | None => bar = [] /\ w = a_width (tv_area v)
     | Some (t, b) => w + 1 = a_width (tv_area v) /\
         let y := a_top (tv_area v) + j in
         (t <= y <= b -> bar = sc_queue (thumb (scrollbar (tv_skin v))))
         /\ (~ t <= y <= b -> bar = sc_queue (track (scrollbar (tv_skin v))))
     end.
Lemma rows_spec {A} (render : A -> nat -> outcome (list cmd)) v w sb :
  (forall l, In l (tv_lines v) -> exists c, render l (N.to_nat w) = Ret c) ->
  match sb with None => w = a_width (tv_area v) | Some _ => w + 1 = a_width (tv_area v) end ->
  forall n j, a_top (tv_area v) + j + N.of_nat n <= 65536 ->
  exists rows, tv_write_rows render v (N.to_nat w) sb (skipn (N.to_nat (scroll v + j)) (tv_lines v)) j n = Ret (concat rows)
    /\ length rows = n /\ forall i row, nth_error rows i = Some row -> row_ok render v w sb (j + N.of_nat i) row.
Proof.
  intros Hr Hsb. induction n as [|n IH]; intros j Hj.
  - exists []. split; [reflexivity|]. split; [reflexivity|]. intros [|i] row Hi; discriminate.
  - cbn [tv_write_rows]. rewrite add16_ret, bind_ret by lia.
    destruct (IH (j + 1) ltac:(lia)) as (rows & E & Hlen & Hrows).
    replace (N.to_nat (scroll v + (j + 1))) with (S (N.to_nat (scroll v + j))) in E by lia.
    rewrite skipn_nth.
    assert (K : forall content bar, row_ok render v w sb j (MoveTo (a_left (tv_area v)) (a_top (tv_area v) + j) :: content ++ bar) ->
      exists rows', Ret (MoveTo (a_left (tv_area v)) (a_top (tv_area v) + j) :: content ++ bar ++ concat rows) = Ret (concat rows')
        /\ length rows' = S n /\ forall i row, nth_error rows' i = Some row -> row_ok render v w sb (j + N.of_nat i) row).
    { intros content bar Hrow. exists ((MoveTo (a_left (tv_area v)) (a_top (tv_area v) + j) :: content ++ bar) :: rows).
      split; [cbn [concat app]; rewrite app_assoc; reflexivity|]. split; [cbn; congruence|].
      intros [|i] row Hi; cbn in Hi.
      - injection Hi as <-. rewrite N.add_0_r. exact Hrow.
      - replace (j + N.of_nat (S i)) with (j + 1 + N.of_nat i) by lia. apply Hrows. exact Hi. }
    set (bar := match sb with Some _ => _ | None => _ end).
    assert (Hbar : match sb with
       | None => bar = [] /\ w = a_width (tv_area v)
       | Some (t, b) => w + 1 = a_width (tv_area v) /\
         let y := a_top (tv_area v) + j in
         (t <= y <= b -> bar = sc_queue (thumb (scrollbar (tv_skin v))))
         /\ (~ t <= y <= b -> bar = sc_queue (track (scrollbar (tv_skin v)))) end).
    { unfold bar. destruct sb as [[t b]|]; [|split; [reflexivity|exact Hsb]]. split; [exact Hsb|]. cbv zeta.
      destruct ((t <=? a_top (tv_area v) + j) && (a_top (tv_area v) + j <=? b)) eqn:Eb; split; intros; try reflexivity; lia. }
    destruct (nth_error (tv_lines v) (N.to_nat (scroll v + j))) as [l|] eqn:En.
    + destruct (Hr l) as [c Ec]; [eapply nth_error_In; exact En|].
      rewrite Ec, !bind_ret, E, bind_ret. apply K. unfold row_ok. exists c, bar. rewrite En. repeat split; assumption.
    + destruct (filling_styled_spec 32%N (ls_cs (paragraph (tv_skin v))) (N.to_nat w)) as (c & Ec & Hc & Hst).
      unfold SPACE_FILLING, c_space. rewrite Ec, !bind_ret. rewrite (skipn_none _ _ En) in E. rewrite E, bind_ret.
      apply K. unfold row_ok. exists c, bar. rewrite En. split; [reflexivity|]. split; [|exact Hbar]. split; [exact Hc|].
      apply Forall_forall. exact Hst.
Qed.

(** There's one row of the area after the other, the scrollbar being in the last column.
    Missing: areas reaching the last u16, and of null width ([C66_null_width_refuted]); the rendering of a line is the one of C35. *)
Theorem C66_rows_partial : forall A (render : A -> nat -> outcome (list cmd)) v sb,
  0 < a_width (tv_area v) -> a_top (tv_area v) + tv_height v <= 65536 ->
  (forall l w, In l (tv_lines v) -> exists c, render l w = Ret c) ->
  tv_scrollbar v = Ret sb ->
  exists w rows, tv_write_on render v = Ret (concat rows)
    /\ length rows = N.to_nat (tv_height v)
    /\ forall j row, nth_error rows j = Some row -> row_ok render v w sb (N.of_nat j) row.
Proof.
  intros A render v sb Hw Ht Hr Hsb. unfold tv_write_on. rewrite Hsb, bind_ret.
  set (w := match sb with Some _ => a_width (tv_area v) - 1 | None => a_width (tv_area v) end).
  assert (E : (if match sb with Some _ => true | None => false end then subN (a_width (tv_area v)) 1
            else Ret (a_width (tv_area v))) = Ret w).
  { unfold w. destruct sb; [rewrite subN_ret by lia|]; reflexivity. }
  rewrite E, bind_ret. exists w.
  destruct (rows_spec render v w sb (fun l => Hr l (N.to_nat w))) with (n := N.to_nat (tv_height v)) (j := 0) as (rows & Er & Hl & Hrows).
  - unfold w. destruct sb; lia.
  - lia.
  - rewrite N.add_0_r in Er. exists rows. split; [exact Er|]. split; [exact Hl|]. intros j row Hj. apply (Hrows j row Hj).
Qed.
(** When lines are rendered on the asked width, each row covers exactly the width of the area *)
Theorem C66_row_columns : forall A (u : unicode) (render : A -> nat -> outcome (list cmd)) v w sb j row,
  chw u 32 = 1%nat ->
  (forall l c, In l (tv_lines v) -> render l (N.to_nat w) = Ret c -> move u (out_text c) = Z.of_N w) ->
  move u (out_text (sc_queue (thumb (scrollbar (tv_skin v))))) = 1%Z ->
  move u (out_text (sc_queue (track (scrollbar (tv_skin v))))) = 1%Z ->
  row_ok render v w sb j row -> move u (out_text row) = Z.of_N (a_width (tv_area v)).
Proof.
  intros A u render v w sb j row Hsp Hr Hth Htr (content & bar & -> & Hc & Hb).
  change (out_text (MoveTo _ _ :: content ++ bar)) with (out_text (content ++ bar)). rewrite out_text_app, move_app.
  assert (Ec : move u (out_text content) = Z.of_N w).
  { destruct (nth_error (tv_lines v) (N.to_nat (scroll v + j))) eqn:En.
    - eapply Hr; [eapply nth_error_In; exact En|exact Hc].
    - destruct Hc as (-> & _). rewrite repeat_move by assumption. lia. }
  destruct sb as [[t b]|].
  - destruct Hb as (Hw & Hb1 & Hb2). cbv zeta in *.
    assert (D : t <= a_top (tv_area v) + j <= b \/ ~ t <= a_top (tv_area v) + j <= b) by lia.
    destruct D as [D|D]; [rewrite (Hb1 D)|rewrite (Hb2 D)]; lia.
  - destruct Hb as (-> & ->). cbn. lia.
Qed.
(** A mad view is drawn as the text view of its text *)
Theorem C66_mad_view_partial : forall A (render : A -> nat -> outcome (list cmd)) v, 0 < a_width (mv_area v) ->
  mv_write_on render v =
  tv_write_on render (mkTV (mv_area v) (mv_text v (a_width (mv_area v) - 1)) (mv_skin v) (mv_scroll v) true).
Proof. intros A render v H. unfold mv_write_on, mv_text_view. rewrite subN_ret by lia. reflexivity. Qed.
Example C66_example :
  tv_write_on (fun l w => Ret [Print (repeat (N.of_nat l + 65) w)]) (mkTV (mkArea 3 4 5 2) (seq 0 4) skin_default 1 true)
  = Ret [MoveTo 3 4; Print [66; 66; 66; 66]; Styled (fst (sc_cache (track (scrollbar skin_default)))) [9616];
         MoveTo 3 5; Print [67; 67; 67; 67]; Styled (fst (sc_cache (thumb (scrollbar skin_default)))) [9616]].
Proof. vm_compute. reflexivity. Qed.
(** A view with a scrollbar and a null width panics *)
Theorem C66_null_width_refuted : exists (render : nat -> nat -> outcome (list cmd)) v,
  (forall l w, render l w <> Panic) /\ tv_write_on render v = Panic.
Proof. exists (fun _ _ => Ret []), (mkTV (mkArea 0 0 0 5) (seq 0 10) skin_default 0 true). split; [discriminate|vm_compute; reflexivity]. Qed.

Print Assumptions C39_none_iff_fits.
Print Assumptions C39_inside_partial.
Print Assumptions C39_monotone.
Print Assumptions C39_bottom_only_at_end_partial.
Print Assumptions C40_pages_to_lines.
Print Assumptions C40_pages_extremes.
Print Assumptions C40_histories_partial.
Print Assumptions C40_mad_histories_partial.
Print Assumptions C41_page_downs.
Print Assumptions C41_whole_pages.
Print Assumptions C42_text_view_partial.
Print Assumptions C49_pad_partial.
Print Assumptions C66_rows_partial.
