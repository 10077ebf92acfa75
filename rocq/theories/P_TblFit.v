(** * Properties C21 and C22: the balancing of table columns *)
From Coq Require Import Permutation Sorted.
From Verif Require Import Base L_Base M_TblFit S_TblFit L_TblFit.

(** ** C21 Balanced table widths always fit *)

Theorem C21_error : forall n aw, tf_new n aw = Ret None <-> aw < 4 * n + 1.
Proof.
  intros n aw. unfold tf_new. destruct (Nat.ltb_spec aw (n * 4 + 1)); [split; [lia|reflexivity]|].
  rewrite csub_ret by lia. rewrite bind_ret. rewrite csub_ret by lia. rewrite bind_ret. split; [discriminate|lia].
Qed.

Lemma natural_widths_length n cells : length (natural_widths n cells) = n.
Proof. unfold natural_widths. rewrite map_length, seq_length. reflexivity. Qed.
Lemma natural_widths_nth n cells i : i < n -> nth_error (natural_widths n cells) i = Some (natural (cells_of i cells)).
Proof.
  intros H. unfold natural_widths. rewrite nth_error_map, (nth_error_nth' _ 0) by (rewrite seq_length; exact H). rewrite seq_nth by exact H. reflexivity.
Qed.
Lemma natural_widths_ge n cells : Forall (fun w => 3 <= w) (natural_widths n cells).
Proof. unfold natural_widths. apply Forall_map. apply Forall_forall. intros. apply natural_ge. Qed.
Lemma Forall2_nth {A B} (P : A -> B -> Prop) : forall l l', length l = length l' ->
  (forall i a b, nth_error l i = Some a -> nth_error l' i = Some b -> P a b) -> Forall2 P l l'.
Proof.
  induction l as [|a l IH]; intros [|b l'] HL H; try discriminate; constructor.
  - apply (H 0); reflexivity.
  - apply IH; [injection HL; auto|]. intros i. exact (H (S i)).
Qed.
Lemma new_see n aw cells : 4 * n + 1 <= aw -> exists t, tf_new n aw = Ret (Some t)
  /\ see_cells t cells = mkTF (map (fun i => final_col i cells) (seq 0 n)) (aw - 1 - n).
Proof.
  intros H. unfold tf_new. destruct (Nat.ltb_spec aw (n * 4 + 1)); [lia|].
  rewrite csub_ret by lia. rewrite bind_ret. rewrite csub_ret by lia. rewrite bind_ret. eexists. split; [reflexivity|].
  set (t := mkTF _ _). pose proof (final_cols n (aw - 1 - n) cells) as E. fold t in E.
  destruct (see_cells_spec cells t) as (A & _). destruct (see_cells t cells). cbn in *. congruence.
Qed.

(** [n] columns, in [aw] columns of the terminal, the cells being given with their column *)
Theorem C21_fit : forall n aw cells, 4 * n + 1 <= aw -> exists t r,
  tf_new n aw = Ret (Some t) /\ tf_fit (see_cells t cells) = Ret r
  /\ length (col_widths r) = n
  /\ Forall (fun w => 3 <= w) (col_widths r)
  /\ Forall2 (fun w nat => w <= nat) (col_widths r) (natural_widths n cells)
  /\ (sum (natural_widths n cells) + n + 1 <= aw -> col_widths r = natural_widths n cells)
  /\ (aw < sum (natural_widths n cells) + n + 1 -> sum (col_widths r) + n + 1 = aw).
Proof.
  intros n aw cells H. destruct (new_see n aw cells H) as (t & E & Es). exists t. rewrite Es.
  destruct (Nat.le_gt_cases (sum (natural_widths n cells)) (aw - 1 - n)) as [L|L].
  - exists (mkTFR false (natural_widths n cells)). split; [exact E|]. split.
    + unfold tf_fit. cbn [cols available_sum_width]. rewrite map_map. change (map (fun x => col_width (final_col x cells)) (seq 0 n)) with (natural_widths n cells).
      destruct (Nat.leb_spec (sum (natural_widths n cells)) (aw - 1 - n)); [reflexivity|lia].
    + cbn [col_widths]. split; [apply natural_widths_length|]. split; [apply natural_widths_ge|]. split.
      * clear. induction (natural_widths n cells); constructor; [lia|assumption].
      * split; [reflexivity|lia].
  - destruct (Nat.le_gt_cases 2 n) as [Hn|Hn].
    + destruct (@fit_reduced n cells (aw - 1 - n) Hn ltac:(lia) L) as (l & Ef & Hi & Hf & Hs & _).
      eexists. split; [exact E|]. split; [exact Ef|]. cbn [col_widths]. rewrite map_length.
      assert (Hl : length l = n) by (rewrite <- (map_length cf_idx), Hi; apply seq_length).
      split; [exact Hl|]. rewrite Forall_map. split; [eapply Forall_impl; [|exact Hf]; cbn; intros; lia|]. split.
      * apply Forall2_nth; [rewrite map_length, natural_widths_length; exact Hl|].
        intros i w m Hw Hm. rewrite nth_error_map in Hw. destruct (nth_error l i) as [c|] eqn:Ec; [|discriminate]. injection Hw as <-.
        assert (i < n) by (rewrite <- Hl; apply nth_error_Some; congruence).
        rewrite natural_widths_nth in Hm by assumption. injection Hm as <-.
        assert (Hci : cf_idx c = i).
        { pose proof (map_nth_error cf_idx i l Ec) as Hx. rewrite Hi in Hx. rewrite (nth_error_nth' _ 0) in Hx by (rewrite seq_length; assumption).
          rewrite seq_nth in Hx by assumption. injection Hx as Hx. congruence. }
        rewrite Forall_forall in Hf. destruct (Hf c (nth_error_In _ _ Ec)) as (H1 & H2 & _). rewrite Hci in H2. lia.
      * split; [lia|]. intros _. unfold wsum in Hs. lia.
    + destruct n as [|[|n]]; [|clear Hn|lia].
      * unfold natural_widths in L. cbn in L. lia.
      * exists (mkTFR false [aw - 1 - 1]). split; [exact E|]. unfold natural_widths in L. cbn [seq map sum] in L. split.
        -- unfold tf_fit. cbn [cols available_sum_width seq map sum final_col col_width length].
           destruct (Nat.leb_spec (natural (cells_of 0 cells) + 0) (aw - 1 - 1)); [lia|reflexivity].
        -- cbn [col_widths length]. split; [reflexivity|]. split; [constructor; [lia|constructor]|]. unfold natural_widths. cbn [seq map sum].
           split; [constructor; [lia|constructor]|]. split; [lia|]. intros _. lia.
Qed.
(** With the borders, it's never wider than what's available *)
Theorem C21_never_wider : forall n aw cells t r, tf_new n aw = Ret (Some t) -> tf_fit (see_cells t cells) = Ret r ->
  sum (col_widths r) + n + 1 <= aw.
Proof.
  intros n aw cells t r Et Er.
  assert (H : 4 * n + 1 <= aw).
  { destruct (Nat.le_gt_cases (4 * n + 1) aw) as [|L]; [assumption|]. apply C21_error in L. congruence. }
  destruct (C21_fit n aw cells H) as (t' & r' & Et' & Er' & _ & _ & _ & H1 & H2).
  assert (t' = t) by congruence. subst t'. assert (r' = r) by congruence. subst r'.
  destruct (Nat.le_gt_cases (sum (natural_widths n cells) + n + 1) aw) as [L|L]; [rewrite (H1 L); exact L|rewrite (H2 L); lia].
Qed.
Example C21_example : exists t, tf_new 3 40 = Ret (Some t) /\
  tf_fit (see_cells t [(0, 12); (1, 30); (2, 5); (0, 4); (1, 3); (7, 100); (2, 20)]) = Ret (mkTFR true [8; 15; 13]).
Proof. eexists. split; [reflexivity|]. vm_compute. reflexivity. Qed.

(** ** C22 Table width reduction is fair and reported *)

(** Missing: a table of one column, for which [reduced] is never set ([C22_reduced_refuted]) *)
Theorem C22_reduced_partial : forall n aw cells t r, n <> 1 -> tf_new n aw = Ret (Some t) -> tf_fit (see_cells t cells) = Ret r ->
  (reduced r = true <-> exists i w, nth_error (col_widths r) i = Some w /\ w < natural (cells_of i cells)).
Proof.
  intros n aw cells t r Hn1 Et Er.
  assert (H : 4 * n + 1 <= aw).
  { destruct (Nat.le_gt_cases (4 * n + 1) aw) as [|L]; [assumption|]. apply C21_error in L. congruence. }
  destruct (C21_fit n aw cells H) as (t' & r' & Et' & Er' & Hlen & _ & Hle & H1 & H2).
  assert (t' = t) by congruence. subst t'. assert (r' = r) by congruence. subst r'. clear Et' Er'.
  destruct (new_see n aw cells H) as (t' & Et' & Es). assert (t' = t) by congruence. subst t'. rewrite Es in Er.
  destruct (Nat.le_gt_cases (sum (natural_widths n cells)) (aw - 1 - n)) as [L|L].
  - assert (reduced r = false).
    { unfold tf_fit in Er. cbn [cols available_sum_width] in Er. rewrite map_map in Er.
      change (map (fun x => col_width (final_col x cells)) (seq 0 n)) with (natural_widths n cells) in Er.
      destruct (Nat.leb_spec (sum (natural_widths n cells)) (aw - 1 - n)); [|lia]. injection Er as <-. reflexivity. }
    split; [congruence|]. intros (i & w & Hi & Hw). rewrite H1 in Hi by lia.
    assert (i < n) by (rewrite <- (natural_widths_length n cells); apply nth_error_Some; congruence).
    rewrite natural_widths_nth in Hi by assumption. injection Hi as <-. lia.
  - assert (Hn : 2 <= n) by (destruct n as [|[|n]]; [unfold natural_widths in L; cbn in L; lia|lia|lia]).
    destruct (@fit_reduced n cells (aw - 1 - n) Hn ltac:(lia) L) as (l & Ef & _). rewrite Ef in Er. injection Er as <-. cbn [reduced col_widths] in *.
    split; [intros _|reflexivity]. specialize (H2 ltac:(lia)).
    assert (S : forall a b, Forall2 (fun w nat : nat => w <= nat) a b -> sum a < sum b -> exists i w m, nth_error a i = Some w /\ nth_error b i = Some m /\ w < m).
    { clear. induction 1 as [|x y a b Hxy _ IH]; cbn; [lia|]. intros Hs. destruct (Nat.lt_ge_cases x y).
      - exists 0, x, y. auto.
      - destruct IH as (i & w & m & ? & ? & ?); [lia|]. exists (S i), w, m. auto. }
    destruct (S _ _ Hle ltac:(lia)) as (i & w & m & Hw & Hm & Hlt). exists i, w. split; [exact Hw|].
    assert (i < n) by (rewrite <- (natural_widths_length n cells); apply nth_error_Some; congruence).
    rewrite natural_widths_nth in Hm by assumption. injection Hm as <-. exact Hlt.
Qed.

Lemma idx_at n l i c : map cf_idx l = seq 0 n -> nth_error l i = Some c -> cf_idx c = i /\ i < n.
Proof.
  intros Hi Hc. assert (i < n) by (rewrite <- (seq_length n 0), <- Hi, map_length; apply nth_error_Some; congruence).
  pose proof (map_nth_error cf_idx i l Hc) as Hx. rewrite Hi in Hx. rewrite (nth_error_nth' _ 0) in Hx by (rewrite seq_length; assumption).
  rewrite seq_nth in Hx by assumption. injection Hx as Hx. split; [congruence|assumption].
Qed.
Lemma average_unique ws a b : average ws a -> average ws b -> a = b.
Proof. destruct ws; cbn; [congruence|]. intros [H1 H2] [H3 H4]. apply Nat.le_antisymm; auto. Qed.

(** What is fair: when averages are at least 4 and the needed reduction isn't more than what is possible while removing at most
    4 from each column and keeping averages, no column gets less than its average.
    Missing: greater reductions aren't proportional ([C22_fair_refuted]). *)
Theorem C22_average_kept_partial : forall n aw cells t r avg,
  tf_new n aw = Ret (Some t) -> tf_fit (see_cells t cells) = Ret r ->
  2 <= n -> (forall i, i < n -> average (cells_of i cells) (avg i) /\ 4 <= avg i) ->
  let possible i := let w := natural (cells_of i cells) in if avg i + 1 <? w then Nat.min (w - avg i) 4 else 0 in
  sum (natural_widths n cells) + n + 1 <= aw + sum (map possible (seq 0 n)) ->
  forall i w, nth_error (col_widths r) i = Some w -> avg i <= w.
Proof.
  intros n aw cells t r avg Et Er Hn Havg possible Hp i w Hw.
  assert (H : 4 * n + 1 <= aw).
  { destruct (Nat.le_gt_cases (4 * n + 1) aw) as [|L]; [assumption|]. apply C21_error in L. congruence. }
  destruct (C21_fit n aw cells H) as (t' & r' & Et' & Er' & Hlen & _ & Hle & H1 & H2).
  assert (t' = t) by congruence. subst t'. assert (r' = r) by congruence. subst r'. clear Et' Er'.
  assert (Hin : i < n) by (rewrite <- Hlen; apply nth_error_Some; congruence).
  destruct (new_see n aw cells H) as (t' & Et' & Es). assert (t' = t) by congruence. subst t'. rewrite Es in Er.
  destruct (Nat.le_gt_cases (sum (natural_widths n cells)) (aw - 1 - n)) as [L|L].
  - rewrite H1 in Hw by lia. rewrite natural_widths_nth in Hw by assumption. injection Hw as <-.
    destruct (Havg i Hin) as (Ha & _). destruct (avg_width_spec i cells) as (a & _ & Ha' & Hle').
    rewrite (average_unique _ _ _ Ha Ha'). exact Hle'.
  - destruct (@fit_reduced n cells (aw - 1 - n) Hn ltac:(lia) L) as (l & Ef & Hi & Hf & _ & _ & Hk). rewrite Ef in Er. injection Er as <-. cbn [col_widths] in Hw.
    rewrite Forall_forall in Hf.
    assert (HA : forall c, In c l -> cf_avg c = avg (cf_idx c) /\ cf_idx c < n).
    { intros c Hc. apply In_nth_error in Hc as (j & Hj). destruct (idx_at _ _ _ _ Hi Hj) as (<- & Hjn).
      destruct (Hf c (nth_error_In _ _ Hj)) as (_ & _ & Ha). split; [|exact Hjn]. eapply average_unique; [exact Ha|apply Havg; exact Hjn]. }
    assert (Hkk : Forall (fun c => cf_avg c <= cf_width c) l).
    { apply Hk.
      - apply Forall_forall. intros c Hc. destruct (HA c Hc) as (-> & Hc2). apply Havg. exact Hc2.
      - assert (E : map gain_1 l = map possible (seq 0 n)).
        { rewrite <- Hi, map_map. apply map_ext_in. intros c Hc. destruct (HA c Hc) as (Ea & Hcn). destruct (Hf c Hc) as (_ & Es' & _).
          destruct (Havg (cf_idx c) Hcn) as (_ & H4). unfold gain_1, possible. cbv zeta. rewrite Ea, Es'.
          destruct (Nat.ltb_spec 4 (natural (cells_of (cf_idx c) cells))); cbn [andb]; [reflexivity|].
          destruct (Nat.ltb_spec (avg (cf_idx c) + 1) (natural (cells_of (cf_idx c) cells))); [lia|reflexivity]. }
        rewrite E. lia. }
    rewrite nth_error_map in Hw. destruct (nth_error l i) as [c|] eqn:Ec; [|discriminate]. injection Hw as <-.
    destruct (idx_at _ _ _ _ Hi Ec) as (<- & _). rewrite Forall_forall in Hkk. destruct (HA c (nth_error_In _ _ Ec)) as (<- & _).
    apply Hkk. eapply nth_error_In. exact Ec.
Qed.

(** The order of the cuts: a column only gets less than its average (or than 4) when all wider columns are already at 3 *)
Theorem C22_widest_first : forall n aw cells t r i j wi wj a,
  tf_new n aw = Ret (Some t) -> tf_fit (see_cells t cells) = Ret r ->
  nth_error (col_widths r) i = Some wi -> nth_error (col_widths r) j = Some wj ->
  natural (cells_of j cells) < natural (cells_of i cells) ->
  average (cells_of j cells) a -> wj < Nat.max a (Nat.min 4 (natural (cells_of j cells))) -> wi = 3.
Proof.
  intros n aw cells t r i j wi wj a Et Er Hwi Hwj Hnat Ha Hcut.
  assert (H : 4 * n + 1 <= aw).
  { destruct (Nat.le_gt_cases (4 * n + 1) aw) as [|L]; [assumption|]. apply C21_error in L. congruence. }
  destruct (C21_fit n aw cells H) as (t' & r' & Et' & Er' & Hlen & _ & Hle & H1 & H2).
  assert (t' = t) by congruence. subst t'. assert (r' = r) by congruence. subst r'. clear Et' Er'.
  assert (Hi : i < n) by (rewrite <- Hlen; apply nth_error_Some; congruence).
  assert (Hj : j < n) by (rewrite <- Hlen; apply nth_error_Some; congruence).
  destruct (new_see n aw cells H) as (t' & Et' & Es). assert (t' = t) by congruence. subst t'. rewrite Es in Er.
  destruct (Nat.le_gt_cases (sum (natural_widths n cells)) (aw - 1 - n)) as [L|L].
  - rewrite H1 in Hwj by lia. rewrite natural_widths_nth in Hwj by assumption. injection Hwj as <-.
    destruct (avg_width_spec j cells) as (a' & _ & Ha' & Hle'). rewrite (average_unique _ _ _ Ha Ha') in Hcut. lia.
  - assert (Hn : 2 <= n) by (destruct n as [|[|n]]; [lia| |lia]; assert (i = j) by lia; subst; lia).
    destruct (@fit_reduced n cells (aw - 1 - n) Hn ltac:(lia) L) as (l & Ef & Hix & Hf & _ & Hwf & _). rewrite Ef in Er. injection Er as <-. cbn [col_widths] in *.
    rewrite nth_error_map in Hwi, Hwj.
    destruct (nth_error l i) as [ci|] eqn:Eci; [|discriminate]. destruct (nth_error l j) as [cj|] eqn:Ecj; [|discriminate].
    injection Hwi as <-. injection Hwj as <-.
    destruct (idx_at _ _ _ _ Hix Eci) as (Ei & _). destruct (idx_at _ _ _ _ Hix Ecj) as (Ej & _).
    rewrite Forall_forall in Hf. destruct (Hf ci (nth_error_In _ _ Eci)) as (_ & Si & _). destruct (Hf cj (nth_error_In _ _ Ecj)) as (_ & Sj & Aj).
    rewrite Ei in Si. rewrite Ej in Sj, Aj.
    apply (Hwf ci cj (nth_error_In _ _ Eci) (nth_error_In _ _ Ecj)); [lia|].
    unfold floor_1. rewrite (average_unique _ _ _ Aj Ha), Sj. exact Hcut.
Qed.
Example C22_example : exists t, tf_new 2 33 = Ret (Some t) /\
  tf_fit (see_cells t [(0, 20); (0, 10); (1, 16); (1, 4)]) = Ret (mkTFR true [16; 14]).
Proof. eexists. split; [reflexivity|]. vm_compute. reflexivity. Qed.

(** Two columns of the same natural width: one is cut to 3, the other one is left *)
Theorem C22_fair_refuted : exists n aw cells t r, tf_new n aw = Ret (Some t) /\ tf_fit (see_cells t cells) = Ret r
  /\ natural_widths n cells = [100; 100] /\ col_widths r = [3; 100].
Proof. exists 2, 106, [(0, 100); (1, 100)]. do 2 eexists. split; [reflexivity|]. vm_compute. repeat split. Qed.
(** The only column is cut but [reduced] isn't set *)
Theorem C22_reduced_refuted : exists aw cells t r, tf_new 1 aw = Ret (Some t) /\ tf_fit (see_cells t cells) = Ret r
  /\ natural_widths 1 cells = [100] /\ col_widths r = [48] /\ reduced r = false.
Proof. exists 50, [(0, 100)]. do 2 eexists. split; [reflexivity|]. vm_compute. repeat split. Qed.

Print Assumptions C21_error.
Print Assumptions C21_fit.
Print Assumptions C21_never_wider.
Print Assumptions C22_reduced_partial.
Print Assumptions C22_average_kept_partial.
Print Assumptions C22_widest_first.
