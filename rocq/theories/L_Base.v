(** * Lemmas on the base definitions *)
From Verif Require Import Base.
Set Implicit Arguments.

Lemma sum_app l1 l2 : sum (l1 ++ l2) = sum l1 + sum l2.
Proof. induction l1; simpl; lia. Qed.

Lemma sumw_app w s1 s2 : sumw w (s1 ++ s2) = sumw w s1 + sumw w s2.
Proof. unfold sumw. rewrite map_app, sum_app. reflexivity. Qed.

Lemma sumw_cons w c s : sumw w (c :: s) = w c + sumw w s.
Proof. reflexivity. Qed.

Lemma blen_app s1 s2 : blen (s1 ++ s2) = blen s1 + blen s2.
Proof. unfold blen. rewrite map_app, sum_app. reflexivity. Qed.

Lemma len_utf8_pos c : 1 <= len_utf8 c.
Proof.
  unfold len_utf8.
  destruct (N.ltb c 128), (N.ltb c 2048), (N.ltb c 65536); lia.
Qed.

Lemma bind_ret {A B} (a : A) (f : A -> outcome B) : bind (Ret a) f = f a.
Proof. reflexivity. Qed.

Lemma bind_Ret_inv {A B} (m : outcome A) (f : A -> outcome B) b :
  bind m f = Ret b -> exists a, m = Ret a /\ f a = Ret b.
Proof. destruct m; simpl; intros H; try discriminate. eauto. Qed.

Lemma csub_ret a b : b <= a -> csub a b = Ret (a - b).
Proof. intros. unfold csub. destruct (b <=? a) eqn:E; auto. lia. Qed.

Lemma csub_inv a b r : csub a b = Ret r -> b <= a /\ r = a - b.
Proof. unfold csub. destruct (b <=? a) eqn:E; intros H; inversion H; lia. Qed.

Lemma idx_ret {A} (l : list A) i a : nth_error l i = Some a -> idx l i = Ret a.
Proof. unfold idx. intros ->. reflexivity. Qed.

Lemma idx_inv {A} (l : list A) i a : idx l i = Ret a -> nth_error l i = Some a.
Proof. unfold idx. destruct (nth_error l i); intros H; inversion H; reflexivity. Qed.

Lemma idx_lt {A} (l : list A) i : i < length l -> exists a, idx l i = Ret a.
Proof.
  intros H. apply nth_error_Some in H. unfold idx.
  destruct (nth_error l i); [eauto | congruence].
Qed.

Lemma idx_app_mid {A} (pre : list A) a post : idx (pre ++ a :: post) (length pre) = Ret a.
Proof.
  apply idx_ret. rewrite nth_error_app2, Nat.sub_diag by lia. reflexivity.
Qed.

Lemma nth_error_mid {A} (pre : list A) a post : nth_error (pre ++ a :: post) (length pre) = Some a.
Proof. rewrite nth_error_app2, Nat.sub_diag by lia. reflexivity. Qed.

Lemma set_nth_mid {A} (pre : list A) a b post :
  set_nth (length pre) b (pre ++ a :: post) = pre ++ b :: post.
Proof. induction pre; simpl; [reflexivity | now rewrite IHpre]. Qed.

Lemma set_nth_length {A} i (a : A) l : length (set_nth i a l) = length l.
Proof. revert i; induction l; intros [|i]; simpl; auto. Qed.

Lemma nth_error_set_nth_eq {A} i (a : A) l : i < length l -> nth_error (set_nth i a l) i = Some a.
Proof.
  revert i; induction l; simpl; intros [|i] H; simpl; try lia; auto.
  apply IHl; lia.
Qed.

Lemma nth_error_set_nth_neq {A} i j (a : A) l : i <> j -> nth_error (set_nth i a l) j = nth_error l j.
Proof.
  revert i j; induction l; intros [|i] [|j] H; simpl; auto; try lia.
Qed.

Lemma firstn_app_exact {A} (a b : list A) n : n = length a -> firstn n (a ++ b) = a.
Proof. intros ->. rewrite firstn_app, Nat.sub_diag, firstn_all. simpl. apply app_nil_r. Qed.

Lemma skipn_app_exact {A} (a b : list A) n : n = length a -> skipn n (a ++ b) = b.
Proof. intros ->. rewrite skipn_app, Nat.sub_diag, skipn_all. reflexivity. Qed.

Lemma firstn_cons_exact {A} (a b : list A) x n : n = S (length a) -> firstn n (a ++ x :: b) = a ++ [x].
Proof.
  intros ->. replace (a ++ x :: b) with ((a ++ [x]) ++ b) by now rewrite <- app_assoc.
  apply firstn_app_exact. rewrite app_length; simpl; lia.
Qed.

Lemma skipn_cons_exact {A} (a b : list A) x n : n = S (length a) -> skipn n (a ++ x :: b) = b.
Proof.
  intros ->. replace (a ++ x :: b) with ((a ++ [x]) ++ b) by now rewrite <- app_assoc.
  apply skipn_app_exact. rewrite app_length; simpl; lia.
Qed.

Lemma vec_insert_mid {A} (l1 l2 : list A) a i :
  i = length l1 -> vec_insert i a (l1 ++ l2) = Ret (l1 ++ a :: l2).
Proof.
  intros ->. unfold vec_insert. rewrite app_length.
  destruct (length l1 <=? length l1 + length l2) eqn:E; [|lia].
  now rewrite firstn_app_exact, skipn_app_exact.
Qed.

Lemma vec_remove_mid {A} (l1 l2 : list A) a i :
  i = length l1 -> vec_remove i (l1 ++ a :: l2) = Ret (a, l1 ++ l2).
Proof.
  intros ->. unfold vec_remove. rewrite nth_error_mid.
  now rewrite firstn_app_exact, skipn_cons_exact.
Qed.

Lemma vec_split_off_mid {A} (l1 l2 : list A) i :
  i = length l1 -> vec_split_off i (l1 ++ l2) = Ret (l1, l2).
Proof.
  intros ->. unfold vec_split_off. rewrite app_length.
  destruct (length l1 <=? length l1 + length l2) eqn:E; [|lia].
  now rewrite firstn_app_exact, skipn_app_exact.
Qed.

Lemma vec_drain_mid {A} (l1 l2 l3 : list A) i j :
  i = length l1 -> j = length l1 + length l2 -> vec_drain i j (l1 ++ l2 ++ l3) = Ret (l1 ++ l3).
Proof.
  intros -> ->. unfold vec_drain. rewrite !app_length.
  destruct ((length l1 <=? length l1 + length l2) &&
            (length l1 + length l2 <=? length l1 + (length l2 + length l3))) eqn:E; [|lia].
  rewrite firstn_app_exact by reflexivity.
  rewrite app_assoc, skipn_app_exact; [reflexivity | now rewrite app_length].
Qed.

Lemma split_at {A} (l : list A) n : n <= length l ->
  exists a b, l = a ++ b /\ length a = n.
Proof.
  intros H. exists (firstn n l), (skipn n l). split.
  - now rewrite firstn_skipn.
  - rewrite firstn_length. lia.
Qed.

Lemma split_nth {A} (l : list A) n x : nth_error l n = Some x ->
  exists a b, l = a ++ x :: b /\ length a = n.
Proof. apply nth_error_split. Qed.

Lemma split_lt {A} (l : list A) n : n < length l ->
  exists a x b, l = a ++ x :: b /\ length a = n.
Proof.
  intros H. destruct (nth_error l n) eqn:E.
  - apply split_nth in E. destruct E as (a0 & b & E & L). eauto.
  - apply nth_error_None in E. lia.
Qed.

(** Lists are equal when their items are *)
Lemma nth_error_ext {A} (l : list A) : forall l', (forall i, nth_error l i = nth_error l' i) -> l = l'.
Proof.
  induction l as [|a l IH]; intros [|b l'] H; [reflexivity|specialize (H 0); discriminate|specialize (H 0); discriminate|].
  f_equal; [specialize (H 0); cbn in H; congruence|]. apply IH. intros i. exact (H (S i)).
Qed.
Lemma nth_error_repeat_lt {A} (a : A) n i : i < n -> nth_error (repeat a n) i = Some a.
Proof. revert i. induction n as [|n IH]; intros [|i] H; cbn; try lia; [reflexivity|]. apply IH. lia. Qed.
