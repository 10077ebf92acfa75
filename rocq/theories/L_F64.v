(** * Facts on the operations of [f64] *)
From Verif Require Import Base L_Base M_Progress L_Progress M_F64.
From Coq Require Import Floats.SpecFloat.
Set Implicit Arguments.
Open Scope N_scope.

Lemma log2_pow53 q : 2 ^ 53 <= q -> let d := N.log2 q - 52 in 1 <= d /\ 2 ^ (52 + d) <= q < 2 ^ (53 + d).
Proof.
  intros H d. assert (L : 53 <= N.log2 q) by (apply N.log2_le_pow2; [eapply N.lt_le_trans; [|exact H]; reflexivity|exact H]).
  assert (0 < q) by (eapply N.lt_le_trans; [|exact H]; reflexivity).
  destruct (N.log2_spec q) as [A B]; [assumption|]. unfold d. split; [lia|]. replace (52 + (N.log2 q - 52)) with (N.log2 q) by lia.
  replace (53 + (N.log2 q - 52)) with (N.succ (N.log2 q)) by lia. auto.
Qed.
(** Numbers of at most 53 bits *)
Definition bits53 (v : N) : Prop := exists m e, v = m * 2 ^ e /\ m < 2 ^ 53.
Lemma rnd53_exact v : bits53 v -> rnd53 v = v.
Proof.
  intros (m & e & E & L). unfold rnd53. destruct (N.ltb_spec v (2 ^ 53)) as [S|S]; [reflexivity|].
  destruct (log2_pow53 S) as (D & A & B). set (d := N.log2 v - 52) in *. assert (Le : d <= e).
  { destruct (N.le_gt_cases d e) as [H|H]; [exact H|exfalso]. assert (v < 2 ^ (52 + d)); [|lia]. rewrite E. replace (52 + d) with (53 + e + (d - 1 - e)) by lia.
    rewrite !N.pow_add_r. pose proof (pow2_pos e). pose proof (pow2_pos (d - 1 - e)). nia. }
  assert (Ev : v = m * 2 ^ (e - d) * 2 ^ d) by (rewrite E, <- N.mul_assoc, <- N.pow_add_r; do 2 f_equal; lia).
  rewrite Ev at 1. rewrite rne_exact. symmetry. exact Ev.
Qed.
Lemma rnd53_mono n n' : n <= n' -> rnd53 n <= rnd53 n'.
Proof.
  intros L. unfold rnd53.
  assert (U : forall x d, x < 2 ^ (53 + d) -> rne x d <= 2 ^ 53).
  { intros x d H. rewrite <- (rne_exact (2 ^ 53) d). apply rne_mono. rewrite <- N.pow_add_r. lia. }
  assert (W : forall x d, 2 ^ (52 + d) <= x -> 2 ^ 52 <= rne x d).
  { intros x d H. rewrite <- (rne_exact (2 ^ 52) d). apply rne_mono. rewrite <- N.pow_add_r. lia. }
  destruct (N.ltb_spec n (2 ^ 53)) as [A|A], (N.ltb_spec n' (2 ^ 53)) as [B|B]; [exact L| |lia|].
  - destruct (log2_pow53 B) as (D & B1 & B2). set (d := N.log2 n' - 52) in *. specialize (W _ _ B1).
    assert (2 ^ 1 <= 2 ^ d) by (apply N.pow_le_mono_r; lia). change (2 ^ 53) with (2 ^ 52 * 2) in A. nia.
  - destruct (log2_pow53 A) as (D1 & A1 & A2), (log2_pow53 B) as (D2 & B1 & B2). set (d1 := N.log2 n - 52) in *. set (d2 := N.log2 n' - 52) in *.
    assert (Ld : d1 <= d2) by (pose proof (N.log2_le_mono _ _ L); unfold d1, d2; lia). apply N.lt_eq_cases in Ld as [Ld| ->]; [|apply N.mul_le_mono_r, rne_mono, L].
    specialize (W _ _ B1). specialize (U _ _ A2). etransitivity; [apply N.mul_le_mono_r, U|]. etransitivity; [|apply N.mul_le_mono_r, W].
    rewrite <- !N.pow_add_r. apply N.pow_le_mono_r; lia.
Qed.
Lemma rnd53_error x : rnd53 x * 2 ^ 53 <= x * 2 ^ 53 + x /\ x * 2 ^ 53 <= rnd53 x * 2 ^ 53 + x.
Proof.
  unfold rnd53. destruct (N.ltb_spec x (2 ^ 53)) as [S|S]; [lia|].
  destruct (log2_pow53 S) as (D & A & _). set (d := N.log2 x - 52) in *. destruct (rne_nearest x d) as [E1 E2]. set (r := rne x d) in *.
  rewrite N.pow_add_r in A. pose proof (pow2_pos d) as Pd. set (y := 2 ^ d) in *. change (2 ^ 53) with (2 * 2 ^ 52). nia.
Qed.
Lemma F64_ONE_pos : 0 < F64_ONE. Proof. apply pow2_pos. Qed.
Lemma bits53_int k : k < 2 ^ 53 -> bits53 (k * F64_ONE).
Proof. intros H. exists k, 1074. split; [reflexivity|exact H]. Qed.
(** the quotient rounded up *)
Definition units_up (a : N) : N := (a + (F64_ONE - 1)) / F64_ONE.
Lemma units_up_spec a : a <= units_up a * F64_ONE /\ (0 < a -> (units_up a - 1) * F64_ONE < a) /\ (a = 0 -> units_up a = 0).
Proof.
  pose proof F64_ONE_pos as P. unfold units_up. pose proof (N.div_mod (a + (F64_ONE - 1)) F64_ONE ltac:(lia)) as E. pose proof (N.mod_lt (a + (F64_ONE - 1)) F64_ONE ltac:(lia)) as M.
  set (q := (a + (F64_ONE - 1)) / F64_ONE) in *. set (r := (a + (F64_ONE - 1)) mod F64_ONE) in *. generalize dependent F64_ONE. intros U P q r E M.
  split; [nia|]. split; [intros; nia|]. intros ->. nia.
Qed.
Lemma trunc_up_units a : trunc_up a / F64_ONE = units_up a.
Proof. unfold trunc_up. apply N.div_mul. pose proof F64_ONE_pos. lia. Qed.
(** The products of the model are those of the floats of the standard library, with the precision and the exponents of [f64] *)
Definition sf64 (x : F64) : spec_float :=
  match x with FNan => S754_nan | FInf s => S754_infinity s | FFin s a => if a =? 0 then S754_zero s else binary_normalize 53 1024 (if s then - Z.of_N a else Z.of_N a)%Z (-1074) s end.
Definition same_sf (x y : spec_float) : bool :=
  match x, y with
  | S754_finite s m e, S754_finite s' m' e' => Bool.eqb s s' && Pos.eqb m m' && Z.eqb e e'
  | S754_zero s, S754_zero s' | S754_infinity s, S754_infinity s' => Bool.eqb s s'
  | S754_nan, S754_nan => true
  | _, _ => false
  end.
Example same_products : forallb (fun xh => same_sf (SFmul 53 1024 (sf64 (fst xh)) (binary_normalize 53 1024 (Z.of_N (snd xh)) 0 false)) (sf64 (f64_mul_u16 (fst xh) (snd xh))))
  [(FNan, 3); (FInf true, 0); (FInf true, 7); (FFin false (7205759403792794 * 2 ^ 1018), 30); (FFin true (5044031582654956 * 2 ^ 1018), 100);
   (FFin false (9007199254740991 * 2 ^ 2045), 2); (FFin false (9007199254740991 * 2 ^ 2045), 1); (FFin true (4503599627370497 * 2 ^ 700), 65535);
   (FFin true 3, 7); (FFin false 9007199254740991, 3); (FFin true 0, 5); (FFin true (9007199254740993 * 2 ^ 1021), 0); (FFin false (6004799503160661 * 2 ^ 1020), 3)] = true.
Proof. vm_compute. reflexivity. Qed.
