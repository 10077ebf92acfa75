(** * C111: what a wider area does to the columns of a table *)
From Coq Require Import Permutation Sorted.
From Verif Require Import Base L_Base M_TblFit S_TblFit L_TblFit P_TblFit S_Columns.
Set Implicit Arguments.

(** ** The reduction, without its checks *)
Definition ceil (q r : nat) : nat := if negb (q mod r =? 0) then q / r + 1 else q / r.
Definition gain_of (c U e : nat) (x : ColFit) : nat :=
  if eligible x then Nat.min (Nat.min (ceil ((cf_width x - cf_avg x) * c) U) e) (cf_width x - 4) else 0.
Fixpoint pure_1 (c U e : nat) (l : list ColFit) : list ColFit :=
  match l with [] => [] | x :: r => cf_with x (cf_width x - gain_of c U e x) :: pure_1 c U (e - gain_of c U e x) r end.
Fixpoint left_1 (c U e : nat) (l : list ColFit) : nat :=
  match l with [] => e | x :: r => left_1 c U (e - gain_of c U e x) r end.
Fixpoint pure_2 (e : nat) (l : list ColFit) : list ColFit :=
  match l with [] => [] | x :: r => let g := Nat.min e (cf_width x - 3) in cf_with x (cf_width x - g) :: pure_2 (e - g) r end.
Definition pure_red (e : nat) (s : list ColFit) : list ColFit :=
  let U := sum (map gain_1 s) in let c := Nat.min U e in
  pure_2 (if 0 <? c then left_1 c U e s else e) (if 0 <? c then pure_1 c U e s else s).

Lemma cf_with_same x : cf_with x (cf_width x) = x.
Proof. destruct x; reflexivity. Qed.
Lemma pure_1_0 c U : forall l, pure_1 c U 0 l = l /\ left_1 c U 0 l = 0.
Proof.
  induction l as [|x l (IH1 & IH2)]; cbn [pure_1 left_1]; [auto|]. assert (gain_of c U 0 x = 0) as -> by (unfold gain_of; destruct (eligible x); lia).
  rewrite !Nat.sub_0_r, cf_with_same, IH1, IH2. auto.
Qed.
Lemma pure_2_0 : forall l, pure_2 0 l = l.
Proof. induction l as [|x l IH]; cbn [pure_2]; [reflexivity|]. cbn [Nat.min]. rewrite !Nat.sub_0_r, cf_with_same, IH. reflexivity. Qed.
Lemma div_ceil_eq q r : 0 < r -> div_ceil q r = Ret (ceil q r).
Proof. intros H. unfold div_ceil, ceil. destruct (Nat.eqb_spec r 0); [lia|reflexivity]. Qed.
Lemma step_1_pure c U : 0 < U -> forall l e, Forall fresh l -> step_1 c U e l = Ret (pure_1 c U e l, left_1 c U e l).
Proof.
  intros HU. induction l as [|x l IH]; intros e H; [reflexivity|]. inversion H as [|? ? (F1 & F2 & F3) H']; subst. cbn [step_1 pure_1 left_1]. unfold gain_of at 1 2 3. unfold eligible.
  destruct ((4 <? std_width x) && (cf_avg x <? std_width x)) eqn:E.
  - assert (4 < std_width x) by lia. rewrite csub_ret by lia. rewrite bind_ret, div_ceil_eq by exact HU. rewrite bind_ret, csub_ret by lia. rewrite bind_ret. cbv zeta.
    set (g := Nat.min _ _). assert (g <= e /\ g <= cf_width x) by lia. rewrite csub_ret by lia. rewrite bind_ret, csub_ret by lia. rewrite bind_ret.
    destruct (Nat.eqb_spec (e - g) 0) as [Z|Z].
    + rewrite Z. destruct (pure_1_0 c U l) as (-> & ->). reflexivity.
    + rewrite IH by exact H'. reflexivity.
  - rewrite IH by exact H'. rewrite !Nat.sub_0_r, cf_with_same. reflexivity.
Qed.
Lemma step_2_pure eb : 0 < eb -> forall l e, 0 < e -> Forall (fun c => 3 <= cf_width c) l -> exists e', step_2 eb eb e l = Ret (pure_2 e l, e').
Proof.
  intros HU. induction l as [|x l IH]; intros e He H; [eexists; reflexivity|]. inversion H as [|? ? H1 H']; subst. cbn [step_2 pure_2].
  rewrite csub_ret by lia. rewrite bind_ret, div_ceil_same by exact HU. rewrite bind_ret. cbv zeta.
  assert (Nat.min (Nat.min (cf_width x - 3) e) (cf_width x - 3) = Nat.min e (cf_width x - 3)) as -> by lia. set (g := Nat.min e (cf_width x - 3)). rewrite csub_ret by lia. rewrite bind_ret, csub_ret by lia. rewrite bind_ret.
  destruct (Nat.eqb_spec (e - g) 0) as [Z|Z].
  - rewrite Z, pure_2_0. eexists. reflexivity.
  - destruct (IH (e - g) ltac:(lia) H') as (e' & ->). eexists. reflexivity.
Qed.
Lemma pure_1_after c U : 0 < U -> c <= U -> forall l e, Forall fresh l -> Forall after_1 (pure_1 c U e l) /\ length (pure_1 c U e l) = length l /\ wsum (pure_1 c U e l) + e = wsum l + left_1 c U e l.
Proof.
  intros HU Hc l e F. destruct (@step_1_spec c U HU Hc l e F) as (l' & e' & E & K & A & _ & W). rewrite step_1_pure in E by assumption. injection E as <- <-. split; [exact A|]. split; [|exact W].
  apply (f_equal (@length _)) in K. rewrite !map_length in K. exact K.
Qed.
Lemma fit_pure n cells : 2 <= n -> exists s, length s = n /\ Forall fresh s /\ wsum s = sum (natural_widths n cells)
  /\ Forall (fun c => std_width c = natural (cells_of (cf_idx c) cells) /\ average (cells_of (cf_idx c) cells) (cf_avg c)) s
  /\ Forall (fun c => cf_idx c < n) s
  /\ forall a, 3 * n <= a -> a < sum (natural_widths n cells) ->
     tf_fit (mkTF (map (fun i => final_col i cells) (seq 0 n)) a) = Ret (mkTFR true (map cf_width (stable_sort (fun a b => cf_idx a <=? cf_idx b) (pure_red (sum (natural_widths n cells) - a) s)))).
Proof.
  intros Hn. destruct (make_fits_spec cells n 0) as (l0 & E0 & Hi0 & Hw0 & Hf0 & Hs0). fold (natural_widths n cells) in Hw0.
  set (s := stable_sort (fun a b => cf_width b <=? cf_width a) l0). exists s. assert (P1 : Permutation l0 s) by apply stable_sort_perm.
  assert (Len : length s = n) by (rewrite <- (Permutation_length P1), <- (map_length cf_idx), Hi0; apply seq_length).
  assert (F1 : Forall fresh s) by (rewrite <- P1; exact Hf0).
  assert (W1 : wsum s = sum (natural_widths n cells)) by (unfold wsum; rewrite <- (sum_perm (Permutation_map cf_width P1)), Hw0; reflexivity).
  split; [exact Len|]. split; [exact F1|]. split; [exact W1|]. split; [rewrite <- P1; exact Hs0|]. split.
  { apply Forall_forall. intros x Ix. apply (Permutation_in _ (Permutation_sym P1)) in Ix. apply (in_map cf_idx) in Ix. rewrite Hi0 in Ix. apply in_seq in Ix. lia. }
  intros a Ha Hs. unfold tf_fit. cbn [cols available_sum_width].
  assert (Ec : map col_width (map (fun i => final_col i cells) (seq 0 n)) = natural_widths n cells) by (rewrite map_map; reflexivity).
  rewrite Ec. rewrite map_length, seq_length. destruct (Nat.leb_spec (sum (natural_widths n cells)) a); [lia|]. destruct (Nat.eqb_spec n 0); [lia|]. destruct (Nat.eqb_spec n 1); [lia|].
  rewrite E0, bind_ret, csub_ret by lia. rewrite bind_ret. cbv zeta. fold s. set (e := sum (natural_widths n cells) - a).
  destruct (potential_1_spec F1) as (uncut & -> & Hu). rewrite bind_ret. change (uncut = sum (map gain_1 s)) in Hu. unfold pure_red. rewrite <- Hu. cbv zeta.
  assert (T2 : forall l2 e2, Forall (fun c => 3 <= cf_width c) l2 -> length l2 = n -> wsum l2 + e = wsum s + e2 -> exists e3, (if 0 <? e2 then s <- sum_over_3 l2 ;; step_2 e2 (Nat.min s e2) e2 l2 else Ret (l2, e2)) = Ret (pure_2 e2 l2, e3)).
  { intros l2 e2 H3 L2 W2. destruct (Nat.ltb_spec 0 e2).
    - destruct (sum_over_3_spec H3) as (s2 & -> & Hsum). rewrite bind_ret. assert (e2 <= s2) by (rewrite L2 in Hsum; unfold e in *; lia). rewrite Nat.min_r by lia. apply step_2_pure; assumption.
    - assert (e2 = 0) as -> by lia. rewrite pure_2_0. eexists. reflexivity. }
  destruct (Nat.ltb_spec 0 (Nat.min uncut e)) as [L|L].
  - rewrite step_1_pure by (assumption || lia). rewrite bind_ret. destruct (@pure_1_after (Nat.min uncut e) uncut ltac:(lia) ltac:(lia) s e F1) as (A & B & C).
    destruct (T2 _ _ (Forall_impl _ (fun c H => proj2 H) A) (eq_trans B Len) C) as (e3 & ->). rewrite bind_ret. reflexivity.
  - rewrite bind_ret. destruct (T2 s e) as (e3 & ->); [eapply Forall_impl; [|exact F1]; intros c (Q1 & Q2 & _); lia|exact Len|reflexivity|]. rewrite bind_ret. reflexivity.
Qed.

(** ** Sorting keeps the comparison *)
Definition less (x y : ColFit) : Prop := cf_idx x = cf_idx y /\ cf_width x <= cf_width y.
Lemma insert_less : forall l l' x x', Forall2 less l l' -> less x x' -> Forall2 less (sort_insert (fun a b => cf_idx a <=? cf_idx b) x l) (sort_insert (fun a b => cf_idx a <=? cf_idx b) x' l').
Proof.
  intros l l' x x' H X. induction H as [|y y' l l' Y H IH]; cbn [sort_insert]; [auto|]. destruct X as (X1 & X2), Y as (Y1 & Y2). rewrite X1, Y1. destruct (cf_idx x' <=? cf_idx y'); constructor; unfold less; auto.
Qed.
Lemma sort_less : forall l l', Forall2 less l l' -> Forall2 less (stable_sort (fun a b => cf_idx a <=? cf_idx b) l) (stable_sort (fun a b => cf_idx a <=? cf_idx b) l').
Proof. intros l l' H. induction H; [constructor|]. apply insert_less; assumption. Qed.
Lemma less_map : forall l l', Forall2 less l l' -> Forall2 le (map cf_width l) (map cf_width l').
Proof. intros l l' H. induction H as [|x y l l' (_ & H) _ IH]; constructor; assumption. Qed.
Lemma pure_2_less : forall l e e', e' <= e -> Forall2 less (pure_2 e l) (pure_2 e' l).
Proof.
  induction l as [|x l IH]; intros e e' L; cbn [pure_2]; constructor.
  - split; [reflexivity|]. cbn [cf_with cf_width]. lia.
  - apply IH. lia.
Qed.

(** ** Two columns *)
Lemma ceil_spec q r : 0 < r -> r * ceil q r >= q /\ forall y, r * y >= q -> ceil q r <= y.
Proof. intros H. destruct (@div_ceil_spec q r H) as (x & E & A & B). rewrite div_ceil_eq in E by exact H. injection E as <-. auto. Qed.
Lemma ceil_mono d U c c' : 0 < U -> c <= c' -> ceil (d * c) U <= ceil (d * c') U.
Proof. intros HU L. destruct (@ceil_spec (d * c) U HU) as (_ & B). destruct (@ceil_spec (d * c') U HU) as (A' & _). apply B. nia. Qed.
Lemma ceil_step d U c : 0 < U -> d <= U -> ceil (d * S c) U <= S (ceil (d * c) U).
Proof. intros HU L. destruct (@ceil_spec (d * S c) U HU) as (_ & B). destruct (@ceil_spec (d * c) U HU) as (A' & _). apply B. nia. Qed.
Lemma ceil_over d U c : 0 < U -> U <= d -> c <= ceil (d * c) U.
Proof. intros HU L. destruct (@ceil_spec (d * c) U HU) as (A & _). nia. Qed.
Lemma pure_red_U e s : 0 < sum (map gain_1 s) -> pure_red e s = let U := sum (map gain_1 s) in let c := Nat.min U e in pure_2 (left_1 c U e s) (pure_1 c U e s).
Proof.
  intros H. unfold pure_red. cbv zeta. destruct (Nat.ltb_spec 0 (Nat.min (sum (map gain_1 s)) e)) as [L|L]; [reflexivity|]. assert (e = 0) as -> by lia.
  destruct (pure_1_0 (Nat.min (sum (map gain_1 s)) 0) (sum (map gain_1 s)) s) as (-> & ->). reflexivity.
Qed.
(** What is taken from the first column by the first step *)
Lemma first_gain U e x : 0 < U -> fresh x ->
  let g e := gain_of (Nat.min U e) U e x in g e <= e /\ g e <= cf_width x - 3 /\ g e <= g (S e) <= S (g e).
Proof.
  intros HU (F1 & F2 & F3). cbv zeta. unfold gain_of. destruct (eligible x); [|lia]. set (d := cf_width x - cf_avg x). pose proof (@ceil_mono d U (Nat.min U e) (Nat.min U (S e)) HU ltac:(lia)) as M.
  split; [lia|]. split; [lia|]. split; [lia|].
  destruct (Nat.le_gt_cases U e) as [L|L]; [rewrite (Nat.min_l U e), (Nat.min_l U (S e)) by lia; lia|]. rewrite (Nat.min_r U e), (Nat.min_r U (S e)) in * by lia.
  destruct (Nat.le_gt_cases d U) as [D|D].
  - pose proof (@ceil_step d U e HU D). lia.
  - pose proof (@ceil_over d U e HU ltac:(lia)). lia.
Qed.
Lemma second_gain U e x y : 0 < U -> fresh x -> fresh y ->
  let g1 e := gain_of (Nat.min U e) U e x in let g e := gain_of (Nat.min U e) U (e - g1 e) y in
  g1 e + g e <= e /\ g e <= cf_width y - 3 /\ g e <= g (S e) <= S (g e).
Proof.
  intros HU Fx Fy. cbv zeta. destruct (@first_gain U e x HU Fx) as (A1 & A2 & A3). cbv zeta in *. set (g1 := gain_of (Nat.min U e) U e x) in *. set (g1' := gain_of (Nat.min U (S e)) U (S e) x) in *.
  destruct Fy as (F1 & F2 & F3). unfold gain_of. destruct (eligible y); [|lia]. set (d := cf_width y - cf_avg y). pose proof (@ceil_mono d U (Nat.min U e) (Nat.min U (S e)) HU ltac:(lia)) as M.
  split; [lia|]. split; [lia|]. split; [lia|].
  destruct (Nat.le_gt_cases U e) as [L|L]; [rewrite (Nat.min_l U e), (Nat.min_l U (S e)) by lia; lia|]. rewrite (Nat.min_r U e), (Nat.min_r U (S e)) in * by lia.
  destruct (Nat.le_gt_cases d U) as [D|D].
  - pose proof (@ceil_step d U e HU D). lia.
  - pose proof (@ceil_over d U e HU ltac:(lia)). lia.
Qed.
Lemma left_x wx g1 g2 e : 3 <= wx -> g1 <= wx - 3 -> g1 + g2 <= e -> wx - g1 - Nat.min (e - g1 - g2) (wx - g1 - 3) = wx - Nat.min (e - g2) (wx - 3).
Proof. intros. destruct (Nat.min_spec (e - g1 - g2) (wx - g1 - 3)) as [(? & ->)|(? & ->)]; destruct (Nat.min_spec (e - g2) (wx - 3)) as [(? & ->)|(? & ->)]; lia. Qed.
Lemma left_y wx wy g1 g2 e : 3 <= wx -> 3 <= wy -> g1 <= wx - 3 -> g2 <= wy - 3 -> g1 + g2 <= e -> e <= (wx - 3) + (wy - 3) ->
  wy - g2 - Nat.min (e - g1 - g2 - Nat.min (e - g1 - g2) (wx - g1 - 3)) (wy - g2 - 3) = wy - Nat.max g2 (e - (wx - 3)).
Proof.
  intros. destruct (Nat.min_spec (e - g1 - g2) (wx - g1 - 3)) as [(? & ->)|(? & ->)].
  - rewrite Nat.sub_diag. cbn [Nat.min]. rewrite Nat.max_l by lia. lia.
  - rewrite Nat.min_l by lia. rewrite Nat.max_r by lia. lia.
Qed.
Lemma two_less_step x y e : fresh x -> fresh y -> S e <= (cf_width x - 3) + (cf_width y - 3) -> Forall2 less (pure_red (S e) [x; y]) (pure_red e [x; y]).
Proof.
  intros Fx Fy L. destruct (Nat.eq_dec (sum (map gain_1 [x; y])) 0) as [Z|Z].
  - unfold pure_red. rewrite Z. cbn [Nat.min Nat.ltb Nat.leb]. apply pure_2_less. lia.
  - rewrite !pure_red_U by lia. cbv zeta. set (U := sum (map gain_1 [x; y])) in *. assert (HU : 0 < U) by lia. clearbody U. destruct (@first_gain U e x HU Fx) as (A1 & A2 & A3). destruct (@second_gain U e x y HU Fx Fy) as (B1 & B2 & B3).
    destruct (@first_gain U (S e) x HU Fx) as (A1' & A2' & _). destruct (@second_gain U (S e) x y HU Fx Fy) as (B1' & B2' & _). cbv zeta in *.
    cbn [pure_1 left_1 pure_2].
    set (g1 := gain_of (Nat.min U e) U e x) in *. set (g1' := gain_of (Nat.min U (S e)) U (S e) x) in *. set (g2 := gain_of (Nat.min U e) U (e - g1) y) in *. set (g2' := gain_of (Nat.min U (S e)) U (S e - g1') y) in *.
    clearbody g1 g1' g2 g2'. cbn [cf_with cf_width]. destruct Fx as (X1 & X2 & _), Fy as (Y1 & Y2 & _). rewrite <- X1 in X2. rewrite <- Y1 in Y2. clear X1 Y1. set (wx := cf_width x) in *. set (wy := cf_width y) in *. clearbody wx wy.
    rewrite (@left_x wx g1 g2 e), (@left_x wx g1' g2' (S e)), (@left_y wx wy g1 g2 e), (@left_y wx wy g1' g2' (S e)) by (assumption || lia). apply Forall2_cons; [split; [reflexivity|]; cbn [cf_with cf_width]; clear - A3 B3; lia|]. apply Forall2_cons; [split; [reflexivity|]; cbn [cf_with cf_width]; clear - A3 B3; lia|]. constructor.
Qed.
Lemma less_refl l : Forall2 less l l.
Proof. induction l; constructor; [split; [reflexivity|lia]|assumption]. Qed.
Lemma less_trans : forall a b c, Forall2 less a b -> Forall2 less b c -> Forall2 less a c.
Proof. induction a as [|x a IH]; intros b c H1 H2; inversion H1; subst; inversion H2; subst; constructor; [unfold less in *; intuition (congruence || lia)|eauto]. Qed.
Lemma two_less x y e e' : fresh x -> fresh y -> e' <= e -> e <= (cf_width x - 3) + (cf_width y - 3) -> Forall2 less (pure_red e [x; y]) (pure_red e' [x; y]).
Proof.
  intros Fx Fy L. induction L as [|e L IH]; intros B; [apply less_refl|]. eapply less_trans; [apply two_less_step; assumption|]. apply IH. lia.
Qed.

(** ** Theorems *)
Lemma F2_le_refl (l : list nat) : Forall2 le l l.
Proof. induction l; constructor; [lia|assumption]. Qed.
(** When the reduced widths are comparable, all are *)
Lemma wider n aw aw' cells ws ws' : given_widths n aw cells ws -> given_widths n aw' cells ws' -> aw <= aw' ->
  (2 <= n -> forall s, Forall fresh s -> length s = n -> wsum s = sum (natural_widths n cells) -> 
     Forall (fun c => std_width c = natural (cells_of (cf_idx c) cells) /\ average (cells_of (cf_idx c) cells) (cf_avg c)) s -> Forall (fun c => cf_idx c < n) s ->
     forall e e', e' <= e -> e + 3 * n <= wsum s -> Forall2 less (pure_red e s) (pure_red e' s)) ->
  Forall2 le ws ws'.
Proof.
  intros (t & r & T & R & <-) (t' & r' & T' & R' & <-) L H.
  assert (N : 4 * n + 1 <= aw) by (destruct (Nat.le_gt_cases (4 * n + 1) aw) as [|X]; [assumption|apply C21_error in X; congruence]).
  destruct (@C21_fit n aw' cells ltac:(lia)) as (t1 & r1 & T1 & R1 & L1 & _ & _ & W1 & W2). assert (t1 = t') by congruence. subst t1. assert (r1 = r') by congruence. subst r1. clear T1 R1.
  destruct (@C21_fit n aw cells N) as (t1 & r1 & T1 & R1 & L0 & _ & NW & V1 & V2). assert (t1 = t) by congruence. subst t1. assert (r1 = r) by congruence. subst r1. clear T1 R1.
  destruct (Nat.le_gt_cases (sum (natural_widths n cells) + n + 1) aw') as [Q|Q]; [rewrite (W1 Q); exact NW|]. specialize (W2 Q). specialize (V2 ltac:(lia)).
  destruct (Nat.le_gt_cases 2 n) as [N2|N2].
  - destruct (@fit_pure n cells N2) as (s & Ls & Fs & Ws & As & Is & Fit). destruct (@new_see n aw cells N) as (t2 & T2 & E2). destruct (@new_see n aw' cells ltac:(lia)) as (t3 & T3 & E3).
    assert (t2 = t) by congruence. subst t2. assert (t3 = t') by congruence. subst t3. rewrite E2, Fit in R by lia. rewrite E3, Fit in R' by lia. injection R as <-. injection R' as <-. cbn [col_widths].
    apply less_map, sort_less, (H N2 s Fs Ls Ws As Is); lia.
  - destruct n as [|[|n]]; [| |lia].
    + destruct (col_widths r); [|discriminate]. destruct (col_widths r'); [constructor|discriminate].
    + destruct (col_widths r) as [|w [|]]; try discriminate. destruct (col_widths r') as [|w' [|]]; try discriminate. cbn [sum] in *. constructor; [lia|constructor].
Qed.
(** C111, for at most two columns: no column becomes narrower when there's more place *)
Theorem C111_two_partial : forall n aw aw' cells ws ws', n <= 2 -> aw <= aw' -> given_widths n aw cells ws -> given_widths n aw' cells ws' -> Forall2 le ws ws'.
Proof.
  intros n aw aw' cells ws ws' N L G G'. apply (wider G G' L). intros N2 s Fs Ls Ws _ _ e e' Le B. destruct s as [|x [|y [|]]]; cbn [length] in Ls; try lia.
  inversion Fs as [|? ? Fx F]; subst. inversion F as [|? ? Fy _]; subst. apply two_less; try assumption. unfold wsum in B. cbn [map sum] in B. destruct Fx as (X1 & X2 & _), Fy as (Y1 & Y2 & _). lia.
Qed.
(** C111, for any number of columns whose cells have about the same width *)
Theorem C111_steady_partial : forall n aw aw' cells ws ws', (forall i, i < n -> steady (cells_of i cells)) -> aw <= aw' -> given_widths n aw cells ws -> given_widths n aw' cells ws' -> Forall2 le ws ws'.
Proof.
  intros n aw aw' cells ws ws' ST L G G'. apply (wider G G' L). intros N2 s Fs Ls Ws As Is e e' Le B.
  assert (Z : sum (map gain_1 s) = 0).
  { clear - As Is ST. induction s as [|x s IH]; [reflexivity|]. inversion As as [|? ? (A1 & A2) As']; subst. inversion Is as [|? ? I1 Is']; subst. cbn [map sum]. rewrite (IH As' Is'). unfold gain_1.
    destruct (ST _ I1) as [S1|S1]; [destruct (Nat.ltb_spec 4 (std_width x)); [lia|reflexivity]|]. specialize (S1 _ A2). destruct (Nat.ltb_spec (cf_avg x + 1) (std_width x)); [lia|]. rewrite andb_false_r. reflexivity. }
  unfold pure_red. rewrite Z. cbn [Nat.min Nat.ltb Nat.leb]. apply pure_2_less, Le.
Qed.
(** Whatever the columns, the whole table isn't narrower, and it's just as much wider as there's more place until all the columns have their natural widths *)
Theorem C111_total : forall n aw aw' cells ws ws', aw <= aw' -> given_widths n aw cells ws -> given_widths n aw' cells ws' ->
  sum ws <= sum ws' /\ (aw' <= sum (natural_widths n cells) + n + 1 -> sum ws' = sum ws + (aw' - aw)).
Proof.
  intros n aw aw' cells ws ws' L (t & r & T & R & <-) (t' & r' & T' & R' & <-).
  assert (N : 4 * n + 1 <= aw) by (destruct (Nat.le_gt_cases (4 * n + 1) aw) as [|X]; [assumption|apply C21_error in X; congruence]).
  destruct (@C21_fit n aw' cells ltac:(lia)) as (t1 & r1 & T1 & R1 & L1 & _ & _ & W1 & W2). assert (t1 = t') by congruence. subst t1. assert (r1 = r') by congruence. subst r1. clear T1 R1.
  destruct (@C21_fit n aw cells N) as (t1 & r1 & T1 & R1 & L0 & _ & NW & V1 & V2). assert (t1 = t) by congruence. subst t1. assert (r1 = r) by congruence. subst r1. clear T1 R1.
  destruct (Nat.le_gt_cases (sum (natural_widths n cells) + n + 1) aw) as [Q|Q]; [rewrite (V1 Q), W1 by lia; lia|]. specialize (V2 Q).
  destruct (Nat.le_gt_cases (sum (natural_widths n cells) + n + 1) aw') as [Q'|Q']; [rewrite (W1 Q')|specialize (W2 Q')]; lia.
Qed.
(** C111 is false with three columns: with one more column of place, the third one has one column less *)
Theorem C111_three_refuted : exists cells ws ws', given_widths 3 30 cells ws /\ given_widths 3 31 cells ws' /\ ws = [8; 8; 10] /\ ws' = [9; 9; 9] /\ ~ Forall2 le ws ws'.
Proof.
  exists [(0, 10); (1, 10); (2, 10); (0, 6); (1, 6); (2, 6)], [8; 8; 10], [9; 9; 9]. split; [|split; [|split; [reflexivity|split; [reflexivity|]]]].
  - do 2 eexists. split; [reflexivity|]. split; vm_compute; reflexivity.
  - do 2 eexists. split; [reflexivity|]. split; vm_compute; reflexivity.
  - intros H. inversion H as [|? ? ? ? _ H1]; subst. inversion H1 as [|? ? ? ? _ H2]; subst. inversion H2 as [|? ? ? ? H3 _]; subst. lia.
Qed.
Print Assumptions C111_two_partial.
Print Assumptions C111_steady_partial.
Print Assumptions C111_total.
Print Assumptions C111_three_refuted.

Example C111_two_example : exists ws ws', given_widths 2 20 [(0, 30); (1, 12); (0, 4); (1, 6)] ws /\ given_widths 2 30 [(0, 30); (1, 12); (0, 4); (1, 6)] ws' /\ ws = [8; 9] /\ ws' = [17; 10].
Proof. do 2 eexists. split; [|split; [|split; reflexivity]]; do 2 eexists; (split; [reflexivity|]); split; vm_compute; reflexivity. Qed.
Example C111_steady_example : (forall i, i < 3 -> steady (cells_of i [(0, 30); (1, 12); (2, 4); (0, 29); (1, 12)]))
  /\ exists ws ws', given_widths 3 20 [(0, 30); (1, 12); (2, 4); (0, 29); (1, 12)] ws /\ given_widths 3 36 [(0, 30); (1, 12); (2, 4); (0, 29); (1, 12)] ws' /\ ws = [3; 9; 4] /\ ws' = [16; 12; 4].
Proof.
  split.
  - intros i Hi. destruct i as [|[|[|]]]; [| | |lia].
    + right. intros a (A & _). cbn in *. lia.
    + right. intros a (A & _). cbn in *. lia.
    + left. cbn. lia.
  - do 2 eexists. split; [|split; [|split; reflexivity]]; do 2 eexists; (split; [reflexivity|]); split; vm_compute; reflexivity.
Qed.
