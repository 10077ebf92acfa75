(** * Lemmas on areas, scrollbars and views *)
From Verif Require Import Base L_Base M_Style M_Fit S_Fit L_Fit M_F64 M_View S_View.
Set Implicit Arguments.
Open Scope N_scope.

Lemma add16_ret a b : a + b < 65536 -> add16 a b = Ret (a + b).
Proof. intros. unfold add16, U16. destruct (N.ltb_spec (a + b) 65536); [reflexivity|lia]. Qed.
Lemma add16_inv a b r : add16 a b = Ret r -> r = a + b /\ a + b < 65536.
Proof. unfold add16, U16. destruct (N.ltb_spec (a + b) 65536); intros E; [injection E as <-; auto|discriminate]. Qed.
Lemma sub16_ret a b : b <= a -> sub16 a b = Ret (a - b).
Proof. intros. unfold sub16. destruct (N.leb_spec b a); [reflexivity|lia]. Qed.
Lemma mul16_ret a b : a * b < 65536 -> mul16 a b = Ret (a * b).
Proof. intros. unfold mul16, U16. destruct (N.ltb_spec (a * b) 65536); [reflexivity|lia]. Qed.
Lemma subN_ret a b : b <= a -> subN a b = Ret (a - b).
Proof. intros. unfold subN. destruct (N.leb_spec b a); [reflexivity|lia]. Qed.

(** the pieces of the scrollbar *)
Definition tb_of (s c h : N) : N := let t := s * h / c in if (t =? 0) && (0 <? s) then 1 else t.
Definition bot_of (s c h top : N) : N :=
  if (s + h <? c) && (3 <? h) then N.max (N.min (top + tb_of s c h + h * h / c) (top + h - 2)) (top + tb_of s c h)
  else top + tb_of s c h + h * h / c.
Lemma compute_scrollbar_eq lim s c h top : compute_scrollbar lim s c h top =
  if c <=? h then Ret None else
  if (top + tb_of s c h <? lim) && (bot_of s c h top <? lim) then Ret (Some (top + tb_of s c h, bot_of s c h top)) else Panic.
Proof.
  unfold compute_scrollbar. destruct (c <=? h); [reflexivity|]. cbv zeta. fold (tb_of s c h). unfold bot_of.
  destruct ((s + h <? c) && (3 <? h)) eqn:E.
  - rewrite subN_ret by lia. rewrite !bind_ret. reflexivity.
  - rewrite bind_ret. reflexivity.
Qed.

Lemma div_mono a b c : a <= b -> a / c <= b / c.
Proof. intros. destruct (N.eq_dec c 0) as [->|]; [destruct a, b; cbn; lia|]. apply N.div_le_mono; lia. Qed.

Lemma tb_zero s c h : tb_of s c h = 0 <-> s = 0.
Proof.
  unfold tb_of. cbv zeta. split.
  - destruct ((s * h / c =? 0) && (0 <? s)) eqn:E; lia.
  - intros ->. rewrite N.mul_0_l. replace (0 / c) with 0 by (destruct c; reflexivity). reflexivity.
Qed.
Lemma tb_mono s s' c h : s <= s' -> tb_of s c h <= tb_of s' c h.
Proof.
  intros. unfold tb_of. cbv zeta. assert (s * h / c <= s' * h / c) by (apply div_mono; nia).
  destruct ((s * h / c =? 0) && (0 <? s)) eqn:E; destruct ((s' * h / c =? 0) && (0 <? s')) eqn:E'; lia.
Qed.
Lemma thumb_lt c h : h < c -> 0 < h -> h * h / c < h.
Proof. intros. apply N.div_lt_upper_bound; nia. Qed.
Lemma tb_thumb s c h : h < c -> 0 < h -> s <= c - h -> tb_of s c h + h * h / c <= h.
Proof.
  intros. pose proof (@thumb_lt c h H H0). unfold tb_of. cbv zeta.
  destruct ((s * h / c =? 0) && (0 <? s)) eqn:E; [lia|].
  pose proof (N.mul_div_le (s * h) c ltac:(lia)). pose proof (N.mul_div_le (h * h) c ltac:(lia)).
  assert (c * (s * h / c + h * h / c) <= c * h) by nia. nia.
Qed.
Lemma tb_lt s c h : h < c -> 1 < h -> s < c -> tb_of s c h < h.
Proof.
  intros. unfold tb_of. cbv zeta. destruct ((s * h / c =? 0) && (0 <? s)) eqn:E; [lia|].
  apply N.div_lt_upper_bound; nia.
Qed.
Lemma bot_bounds s c h top : h < c -> 0 < h -> s <= c - h -> top + tb_of s c h <= bot_of s c h top <= top + h.
Proof. intros. pose proof (@tb_thumb s c h H H0 H1). unfold bot_of. generalize dependent (h * h / c). intros q ?. destruct ((s + h <? c) && (3 <? h)) eqn:E; lia. Qed.
Lemma bot_mono s s' c h top : s <= s' -> bot_of s c h top <= bot_of s' c h top.
Proof.
  intros. pose proof (@tb_mono s s' c h H). unfold bot_of. generalize (h * h / c). intros q.
  destruct ((s + h <? c) && (3 <? h)) eqn:E; destruct ((s' + h <? c) && (3 <? h)) eqn:E'; lia.
Qed.
Lemma bot_end c h top : h < c -> 0 < h -> top + h - 1 <= bot_of (c - h) c h top.
Proof.
  intros. unfold bot_of. destruct ((c - h + h <? c) && (3 <? h)) eqn:E; [lia|].
  assert ((c - h) * h / c <= tb_of (c - h) c h).
  { unfold tb_of. cbv zeta. destruct (((c - h) * h / c =? 0) && (0 <? c - h)) eqn:E'; lia. }
  pose proof (N.mul_succ_div_gt ((c - h) * h) c ltac:(lia)).
  pose proof (N.mul_succ_div_gt (h * h) c ltac:(lia)).
  assert (c * ((c - h) * h / c + h * h / c + 2) > c * h) by nia.
  assert ((c - h) * h / c + h * h / c + 2 > h) by nia. lia.
Qed.
Lemma bot_not_end s c h top : s + h < c -> 3 < h -> c < h * (h + 1) -> bot_of s c h top < top + h - 1.
Proof.
  intros. unfold bot_of. destruct ((s + h <? c) && (3 <? h)) eqn:E; [|lia].
  assert (tb_of s c h <= h - 2).
  { unfold tb_of. cbv zeta. destruct ((s * h / c =? 0) && (0 <? s)); [lia|].
    assert (s * h / c < h - 1); [|lia]. apply N.div_lt_upper_bound; [lia|]. nia. }
  lia.
Qed.

(** ** text views *)
Lemma tv_with_same {A} (v : TextView A) s : same_but_scroll v (tv_with v s).
Proof. repeat split. Qed.
Lemma tv_with_id {A} (v : TextView A) : tv_with v (scroll v) = v.
Proof. destruct v; reflexivity. Qed.

Lemma pages_to_lines_bounds q h : (I32_MIN <= pages_to_lines q h <= I32_MAX)%Z.
Proof.
  unfold pages_to_lines, I32_MIN, I32_MAX. cbv zeta. destruct (if f64_lt_0 _ then _ else _) as [|neg|neg a]; cbn [f64_as_i32]; [lia|destruct neg; lia|].
  generalize (N2Z.is_nonneg (a / F64_ONE)). generalize (Z.of_N (a / F64_ONE)). intros z Hz. destruct neg; lia.
Qed.

(** the step of [tv_write_rows], with the [nth_error] form *)
Lemma skipn_nth {A} (l : list A) n : skipn n l = match nth_error l n with Some a => a :: skipn (S n) l | None => [] end.
Proof. revert l. induction n as [|n IH]; intros [|a l]; cbn; try reflexivity. rewrite IH. destruct (nth_error l n); reflexivity. Qed.
Lemma skipn_none {A} (l : list A) n : nth_error l n = None -> skipn (S n) l = [].
Proof. intros H. apply skipn_all2. apply nth_error_None in H. lia. Qed.
