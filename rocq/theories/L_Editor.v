(** * Proofs about contents seen as plain editors *)
From Verif Require Import Base L_Base M_Content S_Content L_Content L_Content2 L_Content3 L_Content4 S_Editor.
Set Implicit Arguments.

Definition nonl (l : str) : Prop := forall ch, In ch l -> ch <> c_nl.

Lemma clean_nonl ls l : clean ls -> In l ls -> nonl l.
Proof. intros H I ch C. destruct (H l ch I C) as (A & _). exact A. Qed.

(** ** Lines of a text *)

Lemma head_line_app l r : nonl l -> head_line (l ++ r) = l ++ head_line r.
Proof.
  induction l as [|ch l IH]; intros H; [reflexivity|]. cbn [app head_line].
  rewrite (proj2 (N.eqb_neq ch c_nl)) by (apply H; left; reflexivity). rewrite IH; [reflexivity|]. intros x I. apply H. right. exact I.
Qed.
Lemma rest_lines_app l r : nonl l -> rest_lines (l ++ r) = rest_lines r.
Proof.
  induction l as [|ch l IH]; intros H; [reflexivity|]. cbn [app rest_lines].
  rewrite (proj2 (N.eqb_neq ch c_nl)) by (apply H; left; reflexivity). apply IH. intros x I. apply H. right. exact I.
Qed.
Lemma head_sj l post : nonl l -> head_line (l ++ sj post) = l.
Proof. intros H. rewrite head_line_app by exact H. destruct post as [|x post]; [apply app_nil_r|]. rewrite sj_cons. cbn [head_line]. change (c_nl =? c_nl)%N with true. apply app_nil_r. Qed.
Lemma rest_sj l post : nonl l -> rest_lines (l ++ sj post) = sj post.
Proof. intros H. rewrite rest_lines_app by exact H. destruct post as [|x post]; reflexivity. Qed.

Lemma breaks_app a b : breaks (a ++ b) = breaks a + breaks b.
Proof. induction a as [|ch a IH]; [reflexivity|]. cbn [app breaks]. rewrite IH. lia. Qed.
Lemma breaks_nonl l : nonl l -> breaks l = 0.
Proof.
  induction l as [|ch l IH]; intros H; [reflexivity|]. cbn [breaks].
  rewrite (proj2 (N.eqb_neq ch c_nl)) by (apply H; left; reflexivity). rewrite IH; [reflexivity|]. intros x I. apply H. right. exact I.
Qed.
Lemma breaks_pj pre : clean pre -> breaks (pj pre) = length pre.
Proof.
  induction pre as [|l pre IH]; intros H; [reflexivity|]. rewrite pj_cons, breaks_app. cbn [breaks length]. change (c_nl =? c_nl)%N with true.
  rewrite breaks_nonl by (eapply clean_nonl; [exact H|left; reflexivity]). rewrite IH; [reflexivity|]. intros x ch I. apply H. right. exact I.
Qed.
Lemma breaks_sj post : clean post -> breaks (sj post) = length post.
Proof.
  induction post as [|l post IH]; intros H; [reflexivity|]. rewrite sj_cons. cbn [breaks length]. change (c_nl =? c_nl)%N with true.
  rewrite breaks_app, breaks_nonl by (eapply clean_nonl; [exact H|left; reflexivity]). rewrite IH; [reflexivity|]. intros x ch I. apply H. right. exact I.
Qed.

Lemma flat_cons l ls : flat (l :: ls) = l ++ sj ls.
Proof. reflexivity. Qed.
Lemma lines_of_app l r : nonl l -> lines_of (l ++ c_nl :: r) = l :: lines_of r.
Proof.
  induction l as [|ch l IH]; intros H; [reflexivity|]. cbn [app lines_of].
  rewrite (proj2 (N.eqb_neq ch c_nl)) by (apply H; left; reflexivity). rewrite IH; [reflexivity|]. intros x I. apply H. right. exact I.
Qed.
Lemma lines_of_one l : nonl l -> lines_of l = [l].
Proof.
  induction l as [|ch l IH]; intros H; [reflexivity|]. cbn [lines_of].
  rewrite (proj2 (N.eqb_neq ch c_nl)) by (apply H; left; reflexivity). rewrite IH; [reflexivity|]. intros x I. apply H. right. exact I.
Qed.
Lemma lines_of_flat ls : clean ls -> ls <> [] -> lines_of (flat ls) = ls.
Proof.
  destruct ls as [|l ls]; [congruence|]. intros H _. revert l H. induction ls as [|x ls IH]; intros l H.
  - rewrite flat_cons. unfold sj. cbn [map concat]. rewrite app_nil_r. apply lines_of_one. eapply clean_nonl; [exact H|left; reflexivity].
  - rewrite flat_cons, sj_cons, lines_of_app by (eapply clean_nonl; [exact H|left; reflexivity]). f_equal. apply IH.
    intros y ch I. apply H. right. exact I.
Qed.

Lemma offset_0 ls x : offset_in ls (mkPos 0 x) = x.
Proof. reflexivity. Qed.
Lemma offset_S l ls y x : offset_in (l :: ls) (mkPos (S y) x) = length l + 1 + offset_in ls (mkPos y x).
Proof. unfold offset_in. cbn [py px firstn map sum]. lia. Qed.

Lemma reach_flat f : forall ls y, clean ls -> ls <> [] ->
  reach f y (flat ls) = if y <? length ls then offset_in ls (mkPos y (f (nth y ls []))) else length (flat ls).
Proof.
  intros ls y. revert ls. induction y as [|y IH]; intros [|l ls] H N; try congruence; rewrite flat_cons; cbn [reach nth length].
  - rewrite head_sj by (eapply clean_nonl; [exact H|left; reflexivity]). reflexivity.
  - rewrite rest_sj, head_sj by (eapply clean_nonl; [exact H|left; reflexivity]). destruct ls as [|x ls]; [reflexivity|].
    rewrite sj_cons. rewrite <- flat_cons. rewrite IH; [|intros z ch I; apply H; right; exact I|discriminate].
    change (S y <? S (length (x :: ls))) with (y <? length (x :: ls)). destruct (y <? length (x :: ls)); [rewrite offset_S; reflexivity|].
    rewrite app_length. cbn [length]. lia.
Qed.

(** ** Columns *)

Lemma columns_cons u ch l : columns u (ch :: l) = (if N.eqb ch c_tab then 2 else chw u ch) + columns u l.
Proof. reflexivity. Qed.
Lemma at_column_spec u : forall l col, first_idx_at u l col (at_column u col l).
Proof.
  induction l as [|ch l IH]; intros col; cbn [at_column].
  - split; [right; reflexivity|]. intros j H. lia.
  - destruct (Nat.eqb_spec col 0) as [->|Z].
    + split; [left; cbn [length]; split; [lia|apply Nat.le_0_l]|]. intros j H. lia.
    + destruct (IH (col - (if N.eqb ch c_tab then 2 else chw u ch))) as (A & B). split.
      * cbn [length firstn]. rewrite columns_cons. destruct A as [(A & A')|A]; [left; split; lia|right; lia].
      * intros [|j] H; [change (columns u (firstn 0 (ch :: l))) with 0; lia|]. cbn [firstn]. rewrite columns_cons. specialize (B j). lia.
Qed.
Lemma first_idx_unique u l col i j : first_idx_at u l col i -> first_idx_at u l col j -> i = j.
Proof.
  intros (A & B) (A' & B'). destruct (Nat.lt_trichotomy i j) as [L|[L|L]]; [|exact L|].
  - specialize (B' i L). destruct A as [(A & C)|A]; [lia|]. destruct A' as [(A' & C')|A']; lia.
  - specialize (B j L). destruct A' as [(A' & C)|A']; [lia|]. destruct A as [(A & C')|A]; lia.
Qed.

(** ** Exchanged lines *)

Lemma exchange_spec a b ls ls' : lines_swapped a b ls ls' -> a < length ls -> b < length ls -> ls' = exchange a b ls.
Proof.
  intros (L & A & B & C) Ha Hb. apply L_Base.nth_error_ext. intros i. unfold exchange. rewrite nth_error_map.
  destruct (Nat.lt_ge_cases i (length ls)) as [H|H].
  - rewrite (nth_error_nth' (seq 0 (length ls)) 0) by (rewrite seq_length; exact H). rewrite seq_nth by exact H. cbn [option_map Nat.add].
    destruct (Nat.eqb_spec i a) as [->|Na]; [rewrite A; apply nth_error_nth'; exact Hb|].
    destruct (Nat.eqb_spec i b) as [->|Nb]; [rewrite B; apply nth_error_nth'; exact Ha|].
    rewrite C by assumption. apply nth_error_nth'. exact H.
  - rewrite (proj2 (nth_error_None _ _)) by lia. rewrite (proj2 (nth_error_None (seq 0 (length ls)) i)) by (rewrite seq_length; lia). reflexivity.
Qed.

(** ** Alphanumeric chars *)

Lemma run_at u s : forall i, i < run u s -> exists ch, nth_error s i = Some ch /\ is_alnum u ch = true.
Proof.
  induction s as [|ch s IH]; intros i H; cbn [run] in H; [lia|]. destruct (is_alnum u ch) eqn:E; [|lia].
  destruct i as [|i]; [exists ch; auto|]. apply IH. lia.
Qed.
Lemma run_end u s ch : nth_error s (run u s) = Some ch -> is_alnum u ch = false.
Proof.
  induction s as [|x s IH]; cbn [run]; [discriminate|]. destruct (is_alnum u x) eqn:E; [exact IH|]. cbn. congruence.
Qed.
Lemma run_le u s : run u s <= length s.
Proof. induction s as [|x s IH]; cbn [run length]; [lia|]. destruct (is_alnum u x); lia. Qed.

Lemma nth_error_rev {A} (l : list A) n : n < length l -> nth_error (rev l) n = nth_error l (length l - S n).
Proof.
  intros H. destruct l as [|d l']; [cbn in H; lia|]. set (l := d :: l') in *.
  rewrite (nth_error_nth' (rev l) d) by (rewrite rev_length; exact H). rewrite (nth_error_nth' l d) by lia. f_equal. apply rev_nth. exact H.
Qed.
Lemma nth_error_tl {A} (l : list A) n : nth_error (tl l) n = nth_error l (S n).
Proof. destruct l; [destruct n; reflexivity|reflexivity]. Qed.
Lemma nth_error_skipn {A} (l : list A) : forall k n, nth_error (skipn k l) n = nth_error l (k + n).
Proof. induction l as [|x l IH]; intros [|k] n; cbn; try (destruct n; reflexivity); [reflexivity..|]. apply IH. Qed.

Lemma word_left_run u l1 l2 p : word_left_target u (l1 ++ l2) (length l1) p -> p = length l1 - S (run u (tl (rev l1))).
Proof.
  intros (H & N & A). set (m := run u (tl (rev l1))).
  assert (T : forall q, 0 < q < length l1 -> nth_error (l1 ++ l2) (q - 1) = nth_error (tl (rev l1)) (length l1 - q - 1)).
  { intros q Hq. rewrite nth_error_tl, nth_error_app1 by lia. rewrite nth_error_rev by lia. f_equal. lia. }
  assert (L : m <= length l1 - 1).
  { subst m. rewrite <- (rev_length l1). clear. pose proof (run_le u (tl (rev l1))) as R. destruct (rev l1) as [|x r]; cbn [tl length run] in *; lia. }
  destruct (Nat.lt_trichotomy p (length l1 - S m)) as [Q|[Q|Q]]; [|exact Q|].
  - destruct (A (length l1 - S m)) as (q & E & ch & N' & C); [lia|]. exfalso.
    assert (X : nth_error (tl (rev l1)) m = Some ch).
    { specialize (T (S q)). replace (S q - 1) with q in T by lia. rewrite T in N' by lia. rewrite <- N'. f_equal. lia. }
    apply run_end in X. congruence.
  - exfalso. apply N. destruct (@run_at u (tl (rev l1)) (length l1 - p - 1)) as (ch & X & C); [fold m; lia|].
    exists (p - 1). split; [lia|]. exists ch. split; [|exact C]. rewrite T by lia. exact X.
Qed.

Lemma word_right_run u l1 l2 p : word_right_target u (l1 ++ l2) (length l1) p -> p = length l1 + S (run u (skipn 2 l2)).
Proof.
  intros (H & N & A). set (m := run u (skipn 2 l2)).
  assert (T : forall i, nth_error (l1 ++ l2) (length l1 + 2 + i) = nth_error (skipn 2 l2) i).
  { intros i. rewrite nth_error_skipn, nth_error_app2 by lia. f_equal. lia. }
  destruct (Nat.lt_trichotomy p (length l1 + S m)) as [Q|[Q|Q]]; [|exact Q|].
  - exfalso. apply N. destruct (@run_at u (skipn 2 l2) (p - length l1 - 1)) as (ch & X & C); [fold m; lia|].
    exists ch. split; [|exact C]. rewrite <- X, <- T. f_equal. lia.
  - exfalso. destruct (A (length l1 + S m)) as (ch & X & C); [lia|]. replace (length l1 + S m + 1) with (length l1 + 2 + m) in X by lia.
    rewrite T in X. apply run_end in X. congruence.
Qed.

Lemma word_del_run u l1 l2 e : word_del_end u (l1 ++ l2) (length l1) e ->
  (run u l2 < length l2 -> e = length l1 + S (run u l2) /\ ~ alnum_at u (l1 ++ l2) (e - 1))
  /\ (run u l2 = length l2 -> e = length l1 + length l2 /\ alnum_at u (l1 ++ l2) (e - 1)).
Proof.
  intros ((H1 & H2) & A & B). rewrite app_length in *. set (m := run u l2).
  assert (T : forall i, nth_error (l1 ++ l2) (length l1 + i) = nth_error l2 i) by (intros i; rewrite nth_error_app2 by lia; f_equal; lia).
  assert (U : forall q, length l1 <= q < length l1 + m -> alnum_at u (l1 ++ l2) q).
  { intros q Hq. destruct (@run_at u l2 (q - length l1)) as (ch & X & C); [fold m; lia|]. exists ch. split; [|exact C]. rewrite <- X, <- T. f_equal. lia. }
  assert (E : ~ alnum_at u (l1 ++ l2) (length l1 + m)). { intros (ch & X & C). rewrite T in X. apply run_end in X. congruence. }
  split; intros Hm.
  - assert (Q : e = length l1 + S m).
    { destruct (Nat.lt_trichotomy e (length l1 + S m)) as [Q|[Q|Q]]; [|exact Q|].
      - assert (e = length l1 + length l2) by (apply B, U; lia). lia.
      - exfalso. apply E, A. lia. }
    split; [exact Q|]. replace (e - 1) with (length l1 + m) by lia. exact E.
  - assert (Q : e = length l1 + length l2).
    { destruct (Nat.eq_dec e (length l1 + length l2)) as [Q|Q]; [exact Q|]. apply B, U. lia. }
    split; [exact Q|]. apply U. lia.
Qed.

(** ** Views *)

Lemma whole_put i s : whole (put_at i s) = s.
Proof. apply firstn_skipn. Qed.
Lemma whole_view c : whole (view c) = text c.
Proof. apply whole_put. Qed.
Lemma before_length c : valid c -> length (before (view c)) = cursor c.
Proof. intros V. cbn [view put_at before]. rewrite firstn_length. pose proof (cursor_le V). lia. Qed.

Record parts (c : content) (pre : list Line) (l1 l2 : Line) (post : list Line) : Prop := {
  p_eq : c = mkContent (mkPos (length pre) (length l1)) None (pre ++ (l1 ++ l2) :: post);
  p_pre : clean pre; p_l1 : nonl l1; p_l2 : nonl l2; p_post : clean post; p_all : clean (pre ++ (l1 ++ l2) :: post);
  p_before : before (view c) = pj pre ++ l1;
  p_after : after (view c) = l2 ++ sj post;
  p_left : left_part (view c) = l1;
  p_right : right_part (view c) = l2;
  p_above : breaks (before (view c)) = length pre;
  p_under : breaks (after (view c)) = length post;
  p_lines : lines_of (whole (view c)) = clines c
}.

Lemma view_parts c : unselected c -> exists pre l1 l2 post, parts c pre l1 l2 post.
Proof.
  intros (V & T). destruct (valid_inv V) as (pre & l1 & l2 & post & E & _ & C). rewrite T in E. exists pre, l1, l2, post.
  pose proof C as C0. apply clean_app in C. destruct C as (Cp & C). apply clean_cons in C. destruct C as (Cl & Cq).
  assert (N1 : nonl l1) by (intros ch I; apply Cl; apply in_or_app; auto).
  assert (N2 : nonl l2) by (intros ch I; apply Cl; apply in_or_app; auto).
  assert (B : before (view c) = pj pre ++ l1) by (rewrite E; exact (before_mid None pre l1 l2 post)).
  assert (A : after (view c) = l2 ++ sj post) by (rewrite E; exact (after_mid None pre l1 l2 post)).
  split; try assumption.
  - unfold left_part. rewrite B, rev_app_distr.
    assert (R : nonl (rev l1)) by (intros ch I; apply N1; apply in_rev; exact I).
    rewrite head_line_app by exact R. destruct (last_case pre) as [->|(pre' & l0 & ->)].
    + cbn [pj map concat rev head_line]. rewrite app_nil_r. apply rev_involutive.
    + assert (Z : head_line (rev (pj (pre' ++ [l0]))) = []) by (rewrite pj_snoc, !rev_app_distr; reflexivity).
      rewrite Z, app_nil_r. apply rev_involutive.
  - unfold right_part. rewrite A. apply head_sj. exact N2.
  - rewrite B, breaks_app, breaks_pj, breaks_nonl by assumption. lia.
  - rewrite A, breaks_app, breaks_sj, breaks_nonl by assumption. lia.
  - rewrite whole_view. unfold text. rewrite E. cbn [clines]. apply lines_of_flat; [exact C0|auto].
Qed.

Lemma moved c c' i : unselected c -> valid c' -> same_text c c' -> cursor c' = i -> unselected c' /\ view c' = put_at i (whole (view c)).
Proof.
  intros (V & T) V' (L & T') E. split; [split; [exact V'|congruence]|]. rewrite whole_view. unfold view, text. rewrite E, L. reflexivity.
Qed.
Lemma kept_none c c' : ctail c = None -> tail_kept c c' -> ctail c' = None.
Proof. intros T H. unfold tail_kept in H. rewrite T in H. destruct (ctail c'); [destruct H|reflexivity]. Qed.
Lemma cursor_parts c pre l1 l2 post : parts c pre l1 l2 post -> cursor c = length (pj pre) + length l1.
Proof. intros P. rewrite (p_eq P), cursor_mid, app_length. reflexivity. Qed.
Lemma lines_parts c pre l1 l2 post : parts c pre l1 l2 post -> clines c = pre ++ (l1 ++ l2) :: post /\ cpos c = mkPos (length pre) (length l1)
  /\ nth_error (clines c) (py (cpos c)) = Some (l1 ++ l2).
Proof. intros P. rewrite (p_eq P). cbn [clines cpos py]. split; [reflexivity|]. split; [reflexivity|]. apply nth_error_mid. Qed.
