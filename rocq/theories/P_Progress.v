(** * C63 A progress bar takes at most its width *)
From Verif Require Import Base L_Base M_Progress S_Progress L_Progress.
From Coq Require Import Floats.SpecFloat.
Set Implicit Arguments.
Open Scope N_scope.

(** ** The bar *)

(** Printing never panics; the bar is made of full blocks, only the last one not being necessarily full *)
Theorem C63_no_panic : forall p, exists s, progress_fmt p = Ret s /\ bar_like s.
Proof.
  intros p. rewrite progress_fmt_eq. eexists. split; [reflexivity|]. eexists _, _. split; [reflexivity|]. destruct (@remain_eq (the_mp p) (rnd_f32 _ _)) as [_ H8].
  destruct (N.ltb_spec 0 (rem8 (the_mp p))) as [L|L]; [|split; [cbn; lia|constructor]]. split; [cbn; lia|]. constructor; [|constructor].
  remember (9616 - rem8 (the_mp p)) as c eqn:Ec. unfold eighths_of. rewrite (proj2 (N.leb_le 9608 c)), (proj2 (N.leb_le c 9615)) by lia. cbn [andb]. lia.
Qed.
Print Assumptions C63_no_panic.
(** At most the width. Missing: the widths which aren't a [f32], see [C63_too_long_refuted]; all of those less than 2^24 are. *)
Theorem C63_width_partial : forall p s, part p <= ONE -> is_f32 (chars_len p) -> chars_len p < 2 ^ 64 -> progress_fmt p = Ret s ->
  N.of_nat (length s) <= chars_len p.
Proof.
  intros p s L F B E. pose proof (mp_small p F L B) as Hs. destruct (fmt_facts p E Hs) as [-> _]. pose proof (mp_bounds p F L) as M. set (mp := the_mp p) in *. pose proof ONE_pos as P.
  assert (D : mp / ONE <= chars_len p) by (apply N.div_le_upper_bound; lia). apply N.lt_eq_cases in D as [D|D]; [destruct (_ <? _); lia|].
  assert (Z : mp mod ONE = 0) by (pose proof (N.div_mod mp ONE ltac:(lia)); nia). unfold rem8. rewrite Z. cbn [N.mul N.add]. rewrite (N.div_small (ONE / 2)) by (apply N.div_lt; lia). cbn [N.ltb N.compare]. lia.
Qed.
Print Assumptions C63_width_partial.
(** Exactly this width when complete. Missing: the same widths, see [C63_complete_refuted]. *)
Theorem C63_complete_partial : forall n, is_f32 n -> n < 2 ^ 64 -> exists s, progress_fmt (progress_new ONE n) = Ret s /\ length s = N.to_nat n /\ Forall (fun c => eighths_of c = 8) s.
Proof.
  intros n F B. eexists. split; [apply progress_fmt_eq|]. pose proof ONE_pos as P.
  assert (Em : the_mp (progress_new ONE n) = n * ONE) by (unfold the_mp, fmul; cbn [chars_len part progress_new]; rewrite (f32_of_exact F); apply rnd_exact, f32_ONE, F).
  rewrite Em, N.div_mul by lia. unfold rem8. rewrite N.mod_mul by lia. cbn [N.mul N.add]. rewrite (N.div_small (ONE / 2)) by (apply N.div_lt; lia). cbn [N.ltb N.compare]. rewrite app_nil_r, repeat_length.
  rewrite N.min_l by lia. split; [reflexivity|]. apply Forall_forall. intros c Hc. apply repeat_spec in Hc. subst. reflexivity.
Qed.
Print Assumptions C63_complete_partial.
(** Nothing at zero *)
Theorem C63_zero : forall n, progress_fmt (progress_new 0 n) = Ret [].
Proof.
  intros n. rewrite progress_fmt_eq. replace (the_mp (progress_new 0 n)) with 0; [vm_compute; reflexivity|]. unfold the_mp, fmul. cbn [part progress_new]. rewrite N.mul_0_r. reflexivity.
Qed.
Print Assumptions C63_zero.
(** Monotone: a greater part never gives a shorter bar, nor less eighths of cells *)
Theorem C63_monotone : forall n part part' s s', part <= part' -> progress_fmt (progress_new part n) = Ret s -> progress_fmt (progress_new part' n) = Ret s' ->
  (length s <= length s')%nat /\ eighths s <= eighths s'.
Proof.
  intros n a b s s' L E E'. rewrite progress_fmt_eq in E, E'. apply Ret_inv in E as ->. apply Ret_inv in E' as ->.
  assert (M : the_mp (progress_new a n) <= the_mp (progress_new b n)) by (apply rnd_mono, N.mul_le_mono_l, L).
  assert (F : is_f32 (the_mp (progress_new a n))) by apply rnd_f32. assert (F' : is_f32 (the_mp (progress_new b n))) by apply rnd_f32.
  set (m := the_mp (progress_new a n)) in *. set (m' := the_mp (progress_new b n)) in *. destruct (remain_eq F) as [_ H8]. destruct (remain_eq F') as [_ H8'].
  rewrite !app_length, !repeat_length, !eighths_app, !eighths_full, !N2Nat.id. destruct (last_facts H8) as [-> ->], (last_facts H8') as [-> ->].
  pose proof ONE_pos as P. pose proof (N.div_le_mono m m' ONE ltac:(lia) M) as D.
  assert (G : forall v, is_f32 v -> 2 ^ 64 - 1 <= v / ONE -> rem8 v = 0).
  { intros v Fv Hv. apply big_no_fract; [exact Fv|]. pose proof (N.mul_div_le v ONE ltac:(lia)). assert (2 ^ 24 <= 2 ^ 64 - 1) by (vm_compute; discriminate). nia. }
  apply N.lt_eq_cases in D as [D|D].
  - destruct (N.le_gt_cases (2 ^ 64 - 1) (m / ONE)) as [S|S].
    + rewrite (G m F S), (G m' F') by lia. rewrite !N.min_r by lia. lia.
    + rewrite (N.min_l (m / ONE)) by lia. assert (m / ONE + 1 <= N.min (m' / ONE) (2 ^ 64 - 1)) by lia. destruct (0 <? rem8 m), (0 <? rem8 m'); lia.
  - pose proof (@rem8_mono m m' D M). rewrite D. split; [|lia]. destruct (N.ltb_spec 0 (rem8 m)), (N.ltb_spec 0 (rem8 m')); lia.
Qed.
Print Assumptions C63_monotone.
Lemma rnd_error x k : rnd (x * 2 ^ k) k * 2 ^ 24 <= x * 2 ^ 24 + x /\ x * 2 ^ 24 <= rnd (x * 2 ^ k) k * 2 ^ 24 + x.
Proof.
  pose proof (pow2_pos k) as P. unfold rnd. rewrite N.div_mul by lia. destruct (N.ltb_spec x (2 ^ 24)) as [S|S]; [rewrite rne_exact; lia|].
  destruct (log2_pow S) as (D & A & _). set (d := N.log2 x - 23) in *. destruct (rne_nearest (x * 2 ^ k) (k + d)) as [E1 E2]. set (r := rne (x * 2 ^ k) (k + d)) in *.
  rewrite N.pow_add_r in A, E1, E2. pose proof (pow2_pos d) as Pd. set (y := 2 ^ d) in *. set (z := 2 ^ k) in *.
  assert (F1 : 2 * x <= (2 * r + 1) * y) by nia. assert (F2 : 2 * r * y <= 2 * x + y) by nia. change (2 ^ 24) with (2 * 2 ^ 23). nia.
Qed.
(** The number of eighths of cells filled is right, to half an eighth and the rounding of the product (of at most 1/2^24) *)
Theorem C63_precise : forall n part s, is_f32 n -> part <= ONE -> n < 2 ^ 64 -> progress_fmt (progress_new part n) = Ret s ->
  let exact := 8 * n * part in
  eighths s * ONE * 2 ^ 24 <= (exact + ONE / 2) * 2 ^ 24 + exact /\ exact * 2 ^ 24 < (eighths s * ONE + ONE / 2) * 2 ^ 24 + exact.
Proof.
  intros n part s F L B E exact. pose proof (mp_small (progress_new part n) F L B) as Hs. destruct (fmt_facts _ E Hs) as [_ ->].
  assert (Em : the_mp (progress_new part n) = rnd (n * part * 2 ^ 149) 149).
  { unfold the_mp, fmul. cbn [chars_len M_Progress.part progress_new]. rewrite (f32_of_exact F). f_equal. fold ONE. lia. }
  rewrite Em. destruct (rnd_error (n * part) 149) as [R1 R2]. set (mp := rnd (n * part * 2 ^ 149) 149) in *. pose proof ONE_pos as P.
  assert (X : (8 * (mp / ONE) + rem8 mp) * ONE <= 8 * mp + ONE / 2 < (8 * (mp / ONE) + rem8 mp) * ONE + ONE).
  { unfold rem8. pose proof (N.div_mod mp ONE ltac:(lia)) as D. set (q := mp / ONE) in *. set (f := mp mod ONE) in *.
    pose proof (N.div_mod (f * 8 + ONE / 2) ONE ltac:(lia)) as D'. pose proof (N.mod_lt (f * 8 + ONE / 2) ONE ltac:(lia)). set (g := (f * 8 + ONE / 2) / ONE) in *. lia. }
  assert (H2 : ONE = 2 * (ONE / 2)) by reflexivity. set (h := ONE / 2) in *. unfold exact. lia.
Qed.
Print Assumptions C63_precise.

(** Formatted without width nor precision it's the bar itself. With its width it takes exactly it, the bar being at the start or
    where the alignment tells, and the rest is made of the filling char. *)
Theorem C63_padded : forall f p s n, part p <= ONE -> is_f32 (chars_len p) -> chars_len p < 2 ^ 64 -> progress_fmt p = Ret s ->
  progress_display plain p = Ret s
  /\ (f_width f = Some n -> chars_len p <= N.of_nat n -> f_precision f = None ->
      exists a b, progress_display f p = Ret (repeat (f_fill f) a ++ s ++ repeat (f_fill f) b) /\ (a + length s + b)%nat = n
        /\ match f_align f with Some FRight => b = 0%nat | Some FCenter => (a <= b <= a + 1)%nat | _ => a = 0%nat end).
Proof.
  intros f p s n L F B E. unfold progress_display. rewrite E, !bind_ret. split; [reflexivity|]. intros Ew Hn Ep. unfold pad. rewrite Ep, Ew.
  pose proof (C63_width_partial p L F B E) as W. assert (Hs : (length s <= n)%nat) by lia. clear W. eexists _, _. split; [reflexivity|].
  pose proof (Nat.div_mod (n - length s) 2 ltac:(lia)) as D. pose proof (Nat.mod_upper_bound (n - length s) 2 ltac:(lia)) as D'.
  set (d := ((n - length s) / 2)%nat) in *. destruct (f_align f) as [[]|]; lia.
Qed.
Print Assumptions C63_padded.

(** ** The widths for which it's wrong *)
(** All the widths up to 2^24 are [f32] *)
Example C63_widths : forall n, n <= 2 ^ 24 -> is_f32 n.
Proof.
  intros n H. apply N.lt_eq_cases in H as [H| ->]; [exists n, 0; rewrite N.pow_0_r; split; [lia|exact H]|]. exists 1, 24. split; reflexivity.
Qed.
(** The width is rounded, the bar may be shorter when complete *)
Theorem C63_complete_refuted : exists n s, n < 2 ^ 64 /\ progress_fmt (progress_new ONE n) = Ret s /\ N.of_nat (length s) < n.
Proof.
  exists 16777217. eexists. split; [reflexivity|]. split; [apply progress_fmt_eq|]. set (mp := the_mp _). replace mp with (16777216 * ONE) by (vm_compute; reflexivity).
  rewrite app_length, repeat_length. remember (if 0 <? rem8 (16777216 * ONE) then [9616 - rem8 (16777216 * ONE)] else []) as l eqn:El. assert (l = []) as -> by (rewrite El; vm_compute; reflexivity). clear El.
  remember (N.min (16777216 * ONE / ONE) (2 ^ 64 - 1)) as k eqn:Ek. assert (k = 16777216) by (rewrite Ek; vm_compute; reflexivity). clear Ek. cbn [length]. lia.
Qed.
(** or longer *)
Theorem C63_too_long_refuted : exists p s, part p <= ONE /\ chars_len p < 2 ^ 64 /\ progress_fmt p = Ret s /\ chars_len p < N.of_nat (length s).
Proof.
  exists (progress_new ONE 16777219). eexists. split; [vm_compute; discriminate|]. split; [reflexivity|]. split; [apply progress_fmt_eq|]. set (mp := the_mp _). replace mp with (16777220 * ONE) by (vm_compute; reflexivity).
  rewrite app_length, repeat_length. remember (if 0 <? rem8 (16777220 * ONE) then [9616 - rem8 (16777220 * ONE)] else []) as l eqn:El. assert (l = []) as -> by (rewrite El; vm_compute; reflexivity). clear El.
  remember (N.min (16777220 * ONE / ONE) (2 ^ 64 - 1)) as k eqn:Ek. assert (k = 16777220) by (rewrite Ek; vm_compute; reflexivity). clear Ek. cbn [length chars_len progress_new]. lia.
Qed.

(** Two thirds (as a [f32]) of 7 chars *)
Example C63_example : let p := 11184811 * 2 ^ 125 in is_f32 p /\ p < ONE /\ progress_fmt (progress_new p 7) = Ret [9608; 9608; 9608; 9608; 9611] /\ progress_fmt (progress_new ONE 3) = Ret [9608; 9608; 9608].
Proof. cbv zeta. split; [exists 11184811, 125; split; reflexivity|]. split; [reflexivity|]. split; vm_compute; reflexivity. Qed.
(** Centered in 8 columns; and cut by a precision *)
Example C63_padded_example : let p := progress_new (11184811 * 2 ^ 125) 7 in
  progress_display (mkFmtSpec 46 (Some FCenter) (Some 8%nat) None) p = Ret [46; 9608; 9608; 9608; 9608; 9611; 46; 46]
  /\ progress_display (mkFmtSpec 32 None (Some 4%nat) (Some 3%nat)) p = Ret [9608; 9608; 9608; 32].
Proof. cbv zeta. split; vm_compute; reflexivity. Qed.
(** The products of the model are those of the floats of the standard library, with the precision and the exponents of [f32] *)
Definition sf (v : N) : spec_float := binary_normalize 24 128 (Z.of_N v) (-149) false.
Example C63_same_floats : forallb (fun ab => match SFmul 24 128 (sf (fst ab)) (sf (snd ab)), sf (fmul (fst ab) (snd ab)) with
    | S754_finite _ m e, S754_finite _ m' e' => Pos.eqb m m' && Z.eqb e e' | S754_zero _, S754_zero _ => true | _, _ => false end)
    [(7 * ONE, 11184811 * 2 ^ 125); (3 * ONE, 12345678); (16777215 * ONE, 16777213 * 2 ^ 125); (13 * ONE, 13421773 * 2 ^ 122); (5 * ONE, 3); (ONE / 8, 5); (ONE / 8, 4); (ONE / 8, 12); (ONE / 1024, 1)] = true.
Proof. vm_compute. reflexivity. Qed.
Example C63_same_widths : forallb (fun n => match binary_normalize 24 128 (Z.of_N n) 0 false, sf (f32_of n) with
    | S754_finite _ m e, S754_finite _ m' e' => Pos.eqb m m' && Z.eqb e e' | _, _ => false end) [1; 7; 80; 16777215; 16777217; 16777219; 4294967295; 33554434; 33554435; 33554433; 18446744073709551615] = true.
Proof. vm_compute. reflexivity. Qed.
