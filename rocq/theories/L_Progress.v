(** * Facts on the operations of [f32] and on the parts of a bar *)
From Verif Require Import Base L_Base M_Progress S_Progress.
From Coq Require Import Floats.SpecFloat.
Set Implicit Arguments.
Open Scope N_scope.

(** ** Rounding *)
Lemma pow2_pos k : 0 < 2 ^ k. Proof. apply N.neq_0_lt_0, N.pow_nonzero. discriminate. Qed.
Lemma rne_bounds n k : n / 2 ^ k <= rne n k <= n / 2 ^ k + 1.
Proof. unfold rne. destruct (_ ?= _); [destruct (N.even _)| |]; lia. Qed.
Lemma rne_exact a k : rne (a * 2 ^ k) k = a.
Proof.
  unfold rne. pose proof (pow2_pos k). rewrite N.div_mul, N.mod_mul by lia. cbn [N.mul].
  destruct (N.compare_spec 0 (2 ^ k)); lia.
Qed.
Lemma rne_mono n n' k : n <= n' -> rne n k <= rne n' k.
Proof.
  intros L. pose proof (pow2_pos k) as P. pose proof (rne_bounds n k) as B. pose proof (rne_bounds n' k) as B'.
  pose proof (N.div_le_mono n n' (2 ^ k) ltac:(lia) L) as Q. apply N.lt_eq_cases in Q as [Q|Q]; [lia|].
  unfold rne. rewrite <- Q. set (q := n / 2 ^ k) in *. pose proof (N.div_mod n (2 ^ k) ltac:(lia)) as E. pose proof (N.div_mod n' (2 ^ k) ltac:(lia)) as E'.
  fold q in E. rewrite <- Q in E'. fold q in E'. set (r := n mod 2 ^ k) in *. set (r' := n' mod 2 ^ k) in *. assert (r <= r') by lia.
  destruct (N.compare_spec (2 * r) (2 ^ k)), (N.compare_spec (2 * r') (2 ^ k)); destruct (N.even q); lia.
Qed.
(** it really is the nearest *)
Lemma rne_nearest n k : 2 * n <= (2 * rne n k + 1) * 2 ^ k /\ 2 * rne n k * 2 ^ k <= 2 * n + 2 ^ k.
Proof.
  pose proof (pow2_pos k) as P. unfold rne. pose proof (N.div_mod n (2 ^ k) ltac:(lia)) as E. pose proof (N.mod_lt n (2 ^ k) ltac:(lia)) as M.
  set (q := n / 2 ^ k) in *. set (r := n mod 2 ^ k) in *. rewrite E. destruct (N.compare_spec (2 * r) (2 ^ k)); [destruct (N.even q)| |]; nia.
Qed.
Lemma log2_pow q : 2 ^ 24 <= q -> let d := N.log2 q - 23 in 1 <= d /\ 2 ^ (23 + d) <= q < 2 ^ (24 + d).
Proof.
  intros H d. assert (L : 24 <= N.log2 q) by (apply N.log2_le_pow2; [eapply N.lt_le_trans; [|exact H]; reflexivity|exact H]).
  assert (0 < q) by (eapply N.lt_le_trans; [|exact H]; reflexivity).
  destruct (N.log2_spec q) as [A B]; [assumption|]. unfold d. split; [lia|]. replace (23 + (N.log2 q - 23)) with (N.log2 q) by lia.
  replace (24 + (N.log2 q - 23)) with (N.succ (N.log2 q)) by lia. auto.
Qed.
Lemma rnd_f32 n k : is_f32 (rnd n k).
Proof.
  unfold rnd. destruct (N.ltb_spec (n / 2 ^ k) (2 ^ 24)) as [L|L].
  - pose proof (rne_bounds n k) as B. destruct (N.eq_dec (rne n k) (2 ^ 24)) as [E|E].
    + rewrite E. exists 1, 24. split; [reflexivity|]. reflexivity.
    + exists (rne n k), 0. rewrite N.pow_0_r, N.mul_1_r. split; [reflexivity|lia].
  - destruct (log2_pow L) as (D & A & B). set (q := n / 2 ^ k) in *. set (d := N.log2 q - 23) in *.
    assert (E : n / 2 ^ (k + d) < 2 ^ 24).
    { rewrite N.pow_add_r. rewrite <- N.div_div by (apply N.pow_nonzero; discriminate). fold q. apply N.div_lt_upper_bound; [apply N.pow_nonzero; discriminate|].
      rewrite <- N.pow_add_r, N.add_comm. exact B. }
    pose proof (rne_bounds n (k + d)) as B'. destruct (N.eq_dec (rne n (k + d)) (2 ^ 24)) as [E'|E'].
    + rewrite E'. exists 1, (24 + d). rewrite N.pow_add_r. split; [lia|reflexivity].
    + exists (rne n (k + d)), d. split; [reflexivity|lia].
Qed.
Lemma rnd_exact v k : is_f32 v -> rnd (v * 2 ^ k) k = v.
Proof.
  intros (m & e & E & L). unfold rnd. pose proof (pow2_pos k) as P. rewrite N.div_mul by lia. destruct (N.ltb_spec v (2 ^ 24)) as [S|S]; [apply rne_exact|].
  destruct (log2_pow S) as (D & A & B). set (d := N.log2 v - 23) in *. assert (Le : d <= e).
  { destruct (N.le_gt_cases d e) as [H|H]; [exact H|exfalso]. assert (v < 2 ^ (23 + d)); [|lia]. rewrite E. replace (23 + d) with (24 + e + (d - 1 - e)) by lia.
    rewrite !N.pow_add_r. pose proof (pow2_pos e). pose proof (pow2_pos (d - 1 - e)). nia. }
  assert (Ev : v = m * 2 ^ (e - d) * 2 ^ d) by (rewrite E, <- N.mul_assoc, <- N.pow_add_r; do 2 f_equal; lia).
  rewrite Ev at 1. rewrite <- N.mul_assoc, <- N.pow_add_r, (N.add_comm d k), rne_exact. symmetry. exact Ev.
Qed.
Lemma rnd_mono n n' k : n <= n' -> rnd n k <= rnd n' k.
Proof.
  intros L. unfold rnd. pose proof (pow2_pos k) as P. pose proof (N.div_le_mono n n' (2 ^ k) ltac:(lia) L) as Q.
  assert (U : forall x d, x / 2 ^ k < 2 ^ (24 + d) -> rne x (k + d) <= 2 ^ 24).
  { intros x d H. rewrite <- (rne_exact (2 ^ 24) (k + d)). apply rne_mono. rewrite <- N.pow_add_r. apply N.lt_le_incl. replace (24 + (k + d)) with (k + (24 + d)) by lia.
    rewrite N.pow_add_r. destruct (N.lt_ge_cases x (2 ^ k * 2 ^ (24 + d))) as [G|G]; [exact G|exfalso]. apply N.div_le_lower_bound in G; lia. }
  assert (W : forall x d, 2 ^ (23 + d) <= x / 2 ^ k -> 2 ^ 23 <= rne x (k + d)).
  { intros x d H. rewrite <- (rne_exact (2 ^ 23) (k + d)). apply rne_mono. rewrite <- N.pow_add_r. replace (23 + (k + d)) with (k + (23 + d)) by lia. rewrite N.pow_add_r.
    etransitivity; [apply N.mul_le_mono_l, H|]. apply N.mul_div_le. lia. }
  destruct (N.ltb_spec (n / 2 ^ k) (2 ^ 24)) as [A|A], (N.ltb_spec (n' / 2 ^ k) (2 ^ 24)) as [B|B]; [apply rne_mono, L| |lia|].
  - destruct (log2_pow B) as (D & B1 & B2). set (d := N.log2 (n' / 2 ^ k) - 23) in *. specialize (W _ _ B1). pose proof (U n 0) as Un. rewrite !N.add_0_r in Un. specialize (Un A).
    etransitivity; [exact Un|]. assert (2 ^ 1 <= 2 ^ d) by (apply N.pow_le_mono_r; lia). change (2 ^ 24) with (2 ^ 23 * 2). nia.
  - destruct (log2_pow A) as (D1 & A1 & A2), (log2_pow B) as (D2 & B1 & B2). set (d1 := N.log2 (n / 2 ^ k) - 23) in *. set (d2 := N.log2 (n' / 2 ^ k) - 23) in *.
    assert (Ld : d1 <= d2) by (pose proof (N.log2_le_mono _ _ Q); unfold d1, d2; lia). apply N.lt_eq_cases in Ld as [Ld| ->]; [|apply N.mul_le_mono_r, rne_mono, L].
    specialize (W _ _ B1). specialize (U _ _ A2). etransitivity; [apply N.mul_le_mono_r, U|]. etransitivity; [|apply N.mul_le_mono_r, W].
    rewrite <- !N.pow_add_r. apply N.pow_le_mono_r; lia.
Qed.
Lemma f32_mul8 v : is_f32 v -> is_f32 (v * 8).
Proof. intros (m & e & -> & L). exists m, (e + 3). split; [|exact L]. rewrite N.pow_add_r. change (2 ^ 3) with 8. lia. Qed.
Lemma f32_ONE v : is_f32 v -> is_f32 (v * ONE).
Proof. intros (m & e & -> & L). exists m, (e + 149). split; [|exact L]. rewrite N.pow_add_r. unfold ONE. lia. Qed.
Lemma ONE_pos : 0 < ONE. Proof. apply pow2_pos. Qed.
Lemma f32_fract v : is_f32 v -> is_f32 (v mod ONE).
Proof.
  intros (m & e & -> & L). destruct (N.le_gt_cases 149 e) as [H|H].
  - exists 0, 0. split; [|reflexivity]. replace e with (e - 149 + 149) by lia. rewrite N.pow_add_r, N.mul_assoc. fold ONE. rewrite N.mod_mul by (pose proof ONE_pos; lia). reflexivity.
  - exists (m mod 2 ^ (149 - e)), e. split; [|eapply N.le_lt_trans; [apply N.mod_le; apply N.pow_nonzero; discriminate|exact L]].
    unfold ONE. replace 149 with (149 - e + e) at 1 by lia. rewrite N.pow_add_r. apply N.mul_mod_distr_r; apply N.pow_nonzero; discriminate.
Qed.
Lemma rnd0 v : is_f32 v -> rnd v 0 = v.
Proof. intros H. rewrite <- (rnd_exact 0 H) at 2. rewrite N.pow_0_r, N.mul_1_r. reflexivity. Qed.
Lemma ffract_eq v : is_f32 v -> ffract v = v mod ONE.
Proof.
  intros H. unfold ffract, fsub, ftrunc. pose proof (N.div_mod v ONE ltac:(pose proof ONE_pos; lia)) as E. replace (v - v / ONE * ONE) with (v mod ONE) by lia.
  apply rnd0, f32_fract, H.
Qed.
Lemma fmul8 v : is_f32 v -> fmul v (8 * ONE) = v * 8.
Proof. intros H. unfold fmul. rewrite N.mul_assoc. apply rnd_exact, f32_mul8, H. Qed.
Lemma f32_of_exact n : is_f32 n -> f32_of n = n * ONE.
Proof. intros H. apply rnd0, f32_ONE, H. Qed.
(** the number of eighths after the full chars: the fraction rounded to the nearest one *)
Definition rem8 (mp : N) : N := (mp mod ONE * 8 + ONE / 2) / ONE.
Lemma remain_eq mp : is_f32 mp -> f32_as_usize (fround (fmul (ffract mp) (8 * ONE))) = rem8 mp /\ rem8 mp <= 8.
Proof.
  intros H. rewrite (ffract_eq H), (fmul8 (f32_fract H)). fold (rem8 mp). unfold fround. fold (rem8 mp).
  assert (rem8 mp <= 8).
  { unfold rem8. pose proof (N.mod_lt mp ONE ltac:(pose proof ONE_pos; lia)). apply N.lt_succ_r. apply N.div_lt_upper_bound; [pose proof ONE_pos; lia|].
    assert (ONE / 2 <= ONE) by (apply N.div_le_upper_bound; lia). lia. }
  split; [|assumption]. unfold f32_as_usize. rewrite N.div_mul by (pose proof ONE_pos; lia). apply N.min_l. etransitivity; [eassumption|]. vm_compute. discriminate.
Qed.
Definition the_mp (p : ProgressBar) : N := fmul (f32_of (chars_len p)) (part p).
Lemma progress_fmt_eq p : let mp := the_mp p in
  progress_fmt p = Ret (repeat 9608 (N.to_nat (N.min (mp / ONE) (2 ^ 64 - 1))) ++ (if 0 <? rem8 mp then [9616 - rem8 mp] else [])).
Proof.
  intros mp. unfold progress_fmt, progress_parts. fold (the_mp p). fold mp. destruct (@remain_eq mp (rnd_f32 _ _)) as [-> H].
  change (idx CHARS 7) with (Ret 9608). rewrite bind_ret. fold (f32_as_usize mp). destruct (N.ltb_spec 0 (rem8 mp)) as [L|L]; [|reflexivity].
  assert (E : idx CHARS (N.to_nat (rem8 mp - 1)) = Ret (9616 - rem8 mp)).
  { assert (D : rem8 mp = 1 \/ rem8 mp = 2 \/ rem8 mp = 3 \/ rem8 mp = 4 \/ rem8 mp = 5 \/ rem8 mp = 6 \/ rem8 mp = 7 \/ rem8 mp = 8) by lia.
    repeat (destruct D as [->|D]; [reflexivity|]). rewrite D. reflexivity. }
  rewrite E. reflexivity.
Qed.
Lemma eighths_app a b : eighths (a ++ b) = eighths a + eighths b.
Proof. induction a as [|c a IH]; [reflexivity|]. cbn [app]. unfold eighths in *. cbn [fold_right]. rewrite IH. lia. Qed.
Lemma eighths_full n : eighths (repeat 9608 n) = 8 * N.of_nat n.
Proof. induction n as [|n IH]; [reflexivity|]. cbn [repeat]. unfold eighths in *. cbn [fold_right]. rewrite IH. change (eighths_of 9608) with 8. lia. Qed.
Lemma last_facts r : r <= 8 -> eighths (if 0 <? r then [9616 - r] else []) = r /\ length (if 0 <? r then [9616 - r] else []) = if 0 <? r then 1%nat else 0%nat.
Proof.
  intros Hr. destruct (N.ltb_spec 0 r) as [L|L]; [|split; [cbn; lia|reflexivity]]. split; [|reflexivity]. unfold eighths. cbn [fold_right]. rewrite N.add_0_r. remember (9616 - r) as c eqn:Ec.
  unfold eighths_of. rewrite (proj2 (N.leb_le 9608 c)), (proj2 (N.leb_le c 9615)) by lia. cbn [andb]. lia.
Qed.
Lemma Ret_inv A (a b : A) : Ret a = Ret b -> b = a. Proof. congruence. Qed.
Lemma fmt_facts p s : let mp := the_mp p in progress_fmt p = Ret s -> mp / ONE < 2 ^ 64 ->
  N.of_nat (length s) = mp / ONE + (if 0 <? rem8 mp then 1 else 0) /\ eighths s = 8 * (mp / ONE) + rem8 mp.
Proof.
  intros mp E H. rewrite progress_fmt_eq in E. fold mp in E. apply Ret_inv in E as ->. rewrite N.min_l by lia. rewrite app_length, repeat_length, eighths_app, eighths_full, N2Nat.id.
  destruct (@remain_eq mp (rnd_f32 _ _)) as [_ H8]. destruct (last_facts H8) as [-> ->]. destruct (0 <? rem8 mp); lia.
Qed.
(** from 2^24, there's no fraction *)
Lemma big_no_fract v : is_f32 v -> 2 ^ 24 * ONE <= v -> rem8 v = 0.
Proof.
  intros (m & e & -> & L) H. assert (E : 149 <= e).
  { destruct (N.le_gt_cases 149 e) as [G|G]; [exact G|exfalso]. assert (2 ^ e <= ONE) by (apply N.pow_le_mono_r; lia). pose proof ONE_pos. nia. }
  unfold rem8. replace e with (e - 149 + 149) by lia. rewrite N.pow_add_r, N.mul_assoc. fold ONE. rewrite N.mod_mul by (pose proof ONE_pos; lia).
  cbn [N.mul N.add]. apply N.div_small, N.div_lt; [apply ONE_pos|lia].
Qed.
Lemma mp_bounds p : is_f32 (chars_len p) -> part p <= ONE -> the_mp p <= chars_len p * ONE.
Proof.
  intros H L. unfold the_mp, fmul. rewrite (f32_of_exact H). etransitivity; [|apply N.eq_le_incl, (@rnd_exact (chars_len p * ONE) 149), f32_ONE, H]. apply rnd_mono, N.mul_le_mono_l, L.
Qed.
Lemma mp_small p : is_f32 (chars_len p) -> part p <= ONE -> chars_len p < 2 ^ 64 -> the_mp p / ONE < 2 ^ 64.
Proof. intros H L B. apply N.div_lt_upper_bound; [pose proof ONE_pos; lia|]. pose proof (mp_bounds p H L). pose proof ONE_pos. nia. Qed.
Lemma rem8_mono a b : a / ONE = b / ONE -> a <= b -> rem8 a <= rem8 b.
Proof.
  intros E L. unfold rem8. apply N.div_le_mono; [pose proof ONE_pos; lia|]. pose proof (N.div_mod a ONE ltac:(pose proof ONE_pos; lia)). pose proof (N.div_mod b ONE ltac:(pose proof ONE_pos; lia)). nia.
Qed.
