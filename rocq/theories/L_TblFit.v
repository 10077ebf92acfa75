(** * Lemmas on the balancing of table columns *)
From Coq Require Import Permutation Sorted.
From Verif Require Import Base L_Base M_TblFit S_TblFit.
Set Implicit Arguments.

(** ** Sorting *)
Lemma sort_insert_perm {A} (le : A -> A -> bool) x l : Permutation (x :: l) (sort_insert le x l).
Proof.
  induction l as [|y l IH]; cbn; [reflexivity|]. destruct (le x y); [reflexivity|].
  rewrite perm_swap. constructor. exact IH.
Qed.
Lemma stable_sort_perm {A} (le : A -> A -> bool) l : Permutation l (stable_sort le l).
Proof. induction l as [|x l IH]; cbn; [reflexivity|]. rewrite <- sort_insert_perm. constructor. exact IH. Qed.
Lemma sort_insert_sorted {A} (le : A -> A -> bool) x l :
  (forall a b, le a b = false -> le b a = true) -> (forall a b c, le a b = true -> le b c = true -> le a c = true) ->
  StronglySorted (fun a b => le a b = true) l -> StronglySorted (fun a b => le a b = true) (sort_insert le x l).
Proof.
  intros Ht Htr. induction 1 as [|y l Hl IH Hy]; cbn; [constructor; constructor|].
  destruct (le x y) eqn:E.
  - constructor; [constructor; assumption|]. constructor; [exact E|]. rewrite Forall_forall in *. intros z Hz. eapply Htr; [exact E|auto].
  - constructor; [exact IH|]. apply Forall_forall. intros z Hz. apply (Permutation_in _ (Permutation_sym (sort_insert_perm le x l))) in Hz.
    destruct Hz as [<-|Hz]; [auto|]. rewrite Forall_forall in Hy. auto.
Qed.
Lemma stable_sort_sorted {A} (le : A -> A -> bool) l :
  (forall a b, le a b = false -> le b a = true) -> (forall a b c, le a b = true -> le b c = true -> le a c = true) ->
  StronglySorted (fun a b => le a b = true) (stable_sort le l).
Proof. intros Ht Htr. induction l as [|x l IH]; cbn; [constructor|]. apply sort_insert_sorted; assumption. Qed.

(** two permutations sorted on a strict key are equal *)
Lemma sorted_unique {A} (key : A -> nat) : forall l l', 
  StronglySorted (fun a b => key a <= key b) l -> StronglySorted (fun a b => key a < key b) l' -> Permutation l l' -> l = l'.
Proof.
  induction l as [|x l IH]; intros l' Hl Hl' Hp.
  - apply Permutation_nil in Hp. congruence.
  - destruct l' as [|y l']; [apply Permutation_sym, Permutation_nil in Hp; discriminate|].
    apply StronglySorted_inv in Hl as [Hl Hx]. apply StronglySorted_inv in Hl' as [Hl' Hy]. rewrite Forall_forall in *.
    assert (x = y).
    { assert (In x (y :: l')) as [E|Hin] by (eapply Permutation_in; [exact Hp|left; reflexivity]); [congruence|].
      assert (In y (x :: l)) as [E|Hin'] by (eapply Permutation_in; [exact (Permutation_sym Hp)|left; reflexivity]); [congruence|].
      specialize (Hx _ Hin'). specialize (Hy _ Hin). lia. }
    subst y. f_equal. apply IH; [assumption..|]. eapply Permutation_cons_inv. exact Hp.
Qed.

(** ** Columns *)
Lemma cells_of_cons i j w cells : cells_of i ((j, w) :: cells) = if j =? i then w :: cells_of i cells else cells_of i cells.
Proof. unfold cells_of. cbn. destruct (j =? i); reflexivity. Qed.

Definition col_with (c : ColData) (ws : list nat) : ColData :=
  mkCol (sum_widths c + sum ws) (fold_left Nat.max ws (col_width c)) (col_count c + length ws).
Lemma see_cells_spec cells : forall t,
  available_sum_width (see_cells t cells) = available_sum_width t
  /\ length (cols (see_cells t cells)) = length (cols t)
  /\ forall i c, nth_error (cols t) i = Some c ->
       nth_error (cols (see_cells t cells)) i = Some (col_with c (cells_of i cells)).
Proof.
  induction cells as [|[j w] cells IH]; intros t; cbn [see_cells].
  - split; [reflexivity|]. split; [reflexivity|]. intros i c ->. unfold col_with, cells_of. cbn. rewrite !Nat.add_0_r. destruct c; reflexivity.
  - destruct (IH (see_cell t j w)) as (A & L & N). rewrite A, L. unfold see_cell in *.
    destruct (nth_error (cols t) j) as [cj|] eqn:Ej.
    + cbn [available_sum_width cols] in *. rewrite set_nth_length. split; [reflexivity|]. split; [reflexivity|].
      intros i c Hc. rewrite cells_of_cons. destruct (Nat.eqb_spec j i) as [->|Hne].
      * assert (cj = c) by congruence. subst cj.
        rewrite (N i (col_see c w)).
        -- unfold col_with, col_see. cbn. f_equal. f_equal; lia.
        -- apply nth_error_set_nth_eq. apply nth_error_Some. congruence.
      * apply N. rewrite nth_error_set_nth_neq by congruence. exact Hc.
    + split; [reflexivity|]. split; [reflexivity|]. intros i c Hc. rewrite cells_of_cons.
      destruct (Nat.eqb_spec j i) as [->|Hne]; [congruence|]. apply N. exact Hc.
Qed.
Lemma fold_max ws : forall m, fold_left Nat.max ws m = Nat.max m (fold_left Nat.max ws 0).
Proof. induction ws as [|w ws IH]; intros m; cbn; [lia|]. rewrite IH. rewrite (IH w). lia. Qed.
Lemma natural_fold ws : fold_left Nat.max ws 3 = natural ws.
Proof. rewrite fold_max. induction ws as [|w ws IH]; [reflexivity|]. cbn [fold_left natural]. rewrite fold_max, <- IH. lia. Qed.
Lemma natural_ge ws : 3 <= natural ws.
Proof. induction ws; cbn; lia. Qed.
Lemma natural_in ws w : In w ws -> w <= natural ws.
Proof. induction ws; cbn; [tauto|]. intros [->|H]; [lia|]. specialize (IHws H). lia. Qed.
Lemma natural_sum ws : sum ws <= length ws * natural ws.
Proof. induction ws; cbn; [lia|]. nia. Qed.

Lemma div_ceil_spec q r : 0 < r -> exists x, div_ceil q r = Ret x /\ r * x >= q /\ (forall y, r * y >= q -> x <= y).
Proof.
  intros Hr. unfold div_ceil. destruct (Nat.eqb_spec r 0); [lia|]. eexists. split; [reflexivity|].
  pose proof (Nat.div_mod q r ltac:(lia)). pose proof (Nat.mod_upper_bound q r ltac:(lia)).
  set (x := q / r) in *. set (m := q mod r) in *. destruct (Nat.eqb_spec m 0); cbn [negb]; split; intros; nia.
Qed.

(** the column [i] of a table *)
Definition final_col (i : nat) (cells : list (nat * nat)) : ColData :=
  mkCol (sum (cells_of i cells)) (natural (cells_of i cells)) (length (cells_of i cells)).
Lemma final_cols n a cells : cols (see_cells (mkTF (repeat col_default n) a) cells) = map (fun i => final_col i cells) (seq 0 n).
Proof.
  destruct (see_cells_spec cells (mkTF (repeat col_default n) a)) as (_ & L & N). cbn [cols] in *. rewrite repeat_length in L.
  apply nth_error_ext. intros i. destruct (Nat.lt_ge_cases i n) as [Hi|Hi].
  - rewrite (N i col_default).
    + unfold col_with, final_col. cbn [sum_widths col_width col_count col_default]. rewrite natural_fold.
      rewrite nth_error_map. rewrite (nth_error_nth' _ 0) by (rewrite seq_length; exact Hi). rewrite seq_nth by exact Hi. reflexivity.
    + rewrite nth_error_repeat_lt by exact Hi. reflexivity.
  - rewrite (proj2 (nth_error_None _ _)) by lia. symmetry. apply nth_error_None. rewrite map_length, seq_length. lia.
Qed.

Lemma avg_width_spec i cells : exists a, avg_width (final_col i cells) = Ret a /\ average (cells_of i cells) a
  /\ a <= natural (cells_of i cells).
Proof.
  unfold avg_width, final_col. cbn [col_count sum_widths]. destruct (cells_of i cells) as [|w ws] eqn:E.
  - exists 0. split; [reflexivity|]. split; [reflexivity|lia].
  - destruct (Nat.eqb_spec (length (w :: ws)) 0); [discriminate|].
    destruct (@div_ceil_spec (sum (w :: ws)) (length (w :: ws))) as (x & Ex & H1 & H2); [lia|].
    exists x. split; [exact Ex|]. split; [split; assumption|]. apply H2. apply natural_sum.
Qed.

(** ** The reduction *)
Definition key (c : ColFit) : nat * nat * nat := (cf_idx c, std_width c, cf_avg c).
Definition wsum (l : list ColFit) : nat := sum (map cf_width l).
Definition fresh (c : ColFit) : Prop := cf_width c = std_width c /\ 3 <= std_width c /\ cf_avg c <= std_width c.

Lemma make_fits_spec cells : forall n s, exists l, make_fits s (map (fun i => final_col i cells) (seq s n)) = Ret l
  /\ map cf_idx l = seq s n /\ map cf_width l = map (fun i => natural (cells_of i cells)) (seq s n)
  /\ Forall fresh l /\ Forall (fun c => std_width c = natural (cells_of (cf_idx c) cells) /\ average (cells_of (cf_idx c) cells) (cf_avg c)) l.
Proof.
  induction n as [|n IH]; intros s; cbn [seq map make_fits].
  - exists []. repeat split; constructor.
  - destruct (avg_width_spec s cells) as (a & -> & Ha & Hle). rewrite bind_ret. destruct (IH (S s)) as (l & -> & Hi & Hw & Hf & Hs). rewrite bind_ret.
    eexists. split; [reflexivity|]. cbn. rewrite Hi, Hw. split; [reflexivity|]. split; [reflexivity|]. split; (constructor; [|assumption]).
    + unfold fresh. cbn. split; [reflexivity|]. split; [apply natural_ge|exact Hle].
    + cbn. split; [reflexivity|exact Ha].
Qed.

Lemma potential_1_spec l : Forall fresh l -> exists p, potential_1 l = Ret p
  /\ p = sum (map (fun c => if (4 <? std_width c) && (cf_avg c + 1 <? std_width c) then Nat.min (std_width c - cf_avg c) 4 else 0) l).
Proof.
  induction 1 as [|c l (H1 & H2 & H3) _ (p & E & Hp)]; cbn [potential_1 map sum]; [eauto|]. rewrite H1.
  destruct ((4 <? std_width c) && (cf_avg c + 1 <? std_width c)); [|eauto].
  rewrite csub_ret by lia. rewrite bind_ret, E, bind_ret. eexists. split; [reflexivity|]. lia.
Qed.

(** what step 1 leaves: at least the average and 4 *)
Definition floor_1 (c : ColFit) : nat := Nat.max (cf_avg c) (Nat.min 4 (std_width c)).
Definition after_1 (c : ColFit) : Prop := floor_1 c <= cf_width c <= std_width c /\ 3 <= cf_width c.
Lemma fresh_after c : fresh c -> after_1 c.
Proof. unfold fresh, after_1, floor_1. lia. Qed.

Definition eligible (c : ColFit) : bool := (4 <? std_width c) && (cf_avg c <? std_width c).

Lemma step_1_spec cut uncut : 0 < uncut -> cut <= uncut -> forall l e, Forall fresh l -> exists l' e',
  step_1 cut uncut e l = Ret (l', e') /\ map key l' = map key l /\ Forall after_1 l' /\ e' <= e /\ wsum l' + e = wsum l + e'.
Proof.
  intros Hu Hc. induction l as [|c l IH]; intros e Hl; cbn [step_1].
  - exists [], e. repeat split; try constructor; lia.
  - inversion Hl as [|? ? Hf Hl']; subst. destruct Hf as (H1 & H2 & H3).
    destruct ((4 <? std_width c) && (cf_avg c <? std_width c)) eqn:E.
    + rewrite csub_ret by lia. rewrite bind_ret.
      destruct (@div_ceil_spec ((cf_width c - cf_avg c) * cut) uncut Hu) as (g & -> & Hg1 & Hg2). rewrite bind_ret.
      assert (Hg : g <= cf_width c - cf_avg c) by (apply Hg2; nia).
      rewrite csub_ret by lia. rewrite bind_ret. cbv zeta. set (gain := Nat.min (Nat.min g e) (cf_width c - 4)).
      rewrite csub_ret by lia. rewrite bind_ret. rewrite csub_ret by lia. rewrite bind_ret.
      assert (Ha : after_1 (cf_with c (cf_width c - gain))) by (unfold after_1, floor_1, cf_with; cbn [std_width cf_avg cf_width]; lia).
      destruct (Nat.eqb_spec (e - gain) 0).
      * do 2 eexists. split; [reflexivity|]. split; [reflexivity|]. split; [constructor; [exact Ha|]|].
        { eapply Forall_impl; [|exact Hl']. apply fresh_after. }
        unfold wsum. cbn. lia.
      * destruct (IH (e - gain) Hl') as (l' & e' & -> & Hk & Hf' & He & Hw). rewrite bind_ret.
        do 2 eexists. split; [reflexivity|]. split; [cbn; f_equal; exact Hk|]. split; [constructor; assumption|]. unfold wsum in *. cbn in *. lia.
    + destruct (IH e Hl') as (l' & e' & -> & Hk & Hf' & He & Hw). rewrite bind_ret.
      do 2 eexists. split; [reflexivity|]. split; [cbn; f_equal; exact Hk|]. split.
      { constructor; [|assumption]. apply fresh_after. repeat split; assumption. }
      unfold wsum in *. cbn in *. lia.
Qed.

Lemma sum_over_3_spec l : Forall (fun c => 3 <= cf_width c) l -> exists s, sum_over_3 l = Ret s /\ s + 3 * length l = wsum l.
Proof.
  induction 1 as [|c l H _ (s & E & Hs)]; cbn [sum_over_3]; [exists 0; split; reflexivity|].
  rewrite csub_ret by lia. rewrite bind_ret, E, bind_ret. eexists. split; [reflexivity|]. unfold wsum in *. cbn. lia.
Qed.

Lemma div_ceil_same d e : 0 < e -> div_ceil (d * e) e = Ret d.
Proof. intros H. unfold div_ceil. destruct (Nat.eqb_spec e 0); [lia|]. rewrite Nat.mod_mul, Nat.div_mul by lia. reflexivity. Qed.

(** step 2 takes all it can from a column before going to the next one *)
Lemma step_2_spec eb : 0 < eb -> forall l e, 0 < e -> Forall (fun c => 3 <= cf_width c) l -> exists l' e',
  step_2 eb eb e l = Ret (l', e') /\ map key l' = map key l /\ Forall2 (fun c c' => 3 <= cf_width c' <= cf_width c) l l'
  /\ e' = e - sum (map (fun c => cf_width c - 3) l) /\ wsum l' + e = wsum l + e'
  /\ ForallOrdPairs (fun p q => cf_width (snd q) < cf_width (fst q) -> cf_width (snd p) = 3) (combine l l').
Proof.
  intros Heb. induction l as [|c l IH]; intros e He Hl; cbn [step_2].
  - exists [], e. repeat split; try constructor; cbn; lia.
  - inversion Hl as [|? ? Hc Hl']; subst. rewrite csub_ret by lia. rewrite bind_ret. rewrite div_ceil_same by lia. rewrite bind_ret. cbv zeta.
    set (gain := Nat.min (Nat.min (cf_width c - 3) e) (cf_width c - 3)).
    rewrite csub_ret by lia. rewrite bind_ret. rewrite csub_ret by lia. rewrite bind_ret.
    destruct (Nat.eqb_spec (e - gain) 0).
    + do 2 eexists. split; [reflexivity|]. split; [reflexivity|].
      assert (Hid : Forall2 (fun c c' => 3 <= cf_width c' <= cf_width c) l l).
      { clear -Hl'. induction Hl'; constructor; [lia|assumption]. }
      split; [constructor; [cbn; lia|exact Hid]|]. cbn [map sum]. split; [lia|]. split; [unfold wsum; cbn; lia|].
      cbn [combine].
      assert (Hsame : forall p, In p (combine l l) -> cf_width (snd p) = cf_width (fst p)).
      { clear. induction l as [|x l IH]; cbn; [tauto|]. intros p [<-|H]; [reflexivity|auto]. }
      constructor; [apply Forall_forall; intros q Hq Hlt; specialize (Hsame _ Hq); lia|].
      clear -Hsame. revert Hsame. generalize (combine l l). intros m. induction m as [|p m IHm]; intros Hs; constructor.
      * apply Forall_forall. intros q Hq Hlt. specialize (Hs q (or_intror Hq)). lia.
      * apply IHm. intros q Hq. apply Hs. right. exact Hq.
    + destruct (IH (e - gain) ltac:(lia) Hl') as (l' & e' & -> & Hk & Hf & He' & Hw & Ho). rewrite bind_ret.
      do 2 eexists. split; [reflexivity|]. split; [cbn; f_equal; exact Hk|]. split; [constructor; [cbn; lia|exact Hf]|].
      cbn [map sum]. split; [lia|]. split; [unfold wsum in *; cbn; lia|]. cbn [combine]. constructor; [|exact Ho].
      apply Forall_forall. intros q _ _. cbn. lia.
Qed.

Lemma sum_minus_3 l : Forall (fun c => 3 <= cf_width c) l -> sum (map (fun c => cf_width c - 3) l) + 3 * length l = wsum l.
Proof. unfold wsum. induction 1; cbn [map sum length]; lia. Qed.

(** when averages are at least 4 and the gain is possible, step 1 is enough *)
Lemma step_1_enough cut uncut : 0 < uncut -> cut <= uncut -> forall l e, Forall fresh l -> Forall (fun c => 4 <= cf_avg c) l -> 0 < e ->
  uncut * e <= cut * sum (map (fun c => if eligible c then std_width c - cf_avg c else 0) l) ->
  exists l', step_1 cut uncut e l = Ret (l', 0).
Proof.
  intros Hu Hc. induction l as [|c l IH]; intros e Hl Ha He Hs; cbn [step_1 map sum] in *.
  - nia.
  - inversion Hl as [|? ? Hf Hl']; subst. inversion Ha as [|? ? Hac Ha']; subst. destruct Hf as (H1 & H2 & H3). unfold eligible at 1 in Hs.
    destruct ((4 <? std_width c) && (cf_avg c <? std_width c)) eqn:E.
    + rewrite csub_ret by lia. rewrite bind_ret.
      destruct (@div_ceil_spec ((cf_width c - cf_avg c) * cut) uncut Hu) as (g & -> & Hg1 & Hg2). rewrite bind_ret.
      assert (Hg : g <= cf_width c - cf_avg c) by (apply Hg2; nia).
      rewrite csub_ret by lia. rewrite bind_ret. cbv zeta. set (gain := Nat.min (Nat.min g e) (cf_width c - 4)).
      rewrite csub_ret by lia. rewrite bind_ret. rewrite csub_ret by lia. rewrite bind_ret.
      destruct (Nat.eqb_spec (e - gain) 0); [eauto|].
      assert (gain = g) by lia. rewrite H in *.
      destruct (IH (e - g) Hl' Ha' ltac:(lia)) as (l' & ->); [|rewrite bind_ret; eauto].
      rewrite H1 in Hg1. set (S := sum _) in *. nia.
    + destruct (IH e Hl' Ha' He Hs) as (l' & ->). rewrite bind_ret. eauto.
Qed.

Lemma sum_perm l l' : Permutation l l' -> sum l = sum l'.
Proof. induction 1; cbn; lia. Qed.

Lemma key_fields l l' : map key l = map key l' -> map cf_idx l = map cf_idx l' /\ map std_width l = map std_width l' /\ map cf_avg l = map cf_avg l'.
Proof.
  revert l'. induction l as [|c l IH]; intros [|c' l'] H; cbn in H; try discriminate; [auto|].
  injection H as E1 E2 E3 E. destruct (IH _ E) as (H1 & H2 & H3). cbn [map]. rewrite E1, E2, E3, H1, H2, H3. auto.
Qed.

Lemma Forall2_in_r {A B} (P : A -> B -> Prop) l l' : Forall2 P l l' -> forall b, In b l' -> exists a, In (a, b) (combine l l') /\ In a l /\ P a b.
Proof.
  induction 1 as [|a b l l' H _ IH]; cbn; [tauto|]. intros x [<-|Hx]; [exists a; auto|].
  destruct (IH _ Hx) as (y & H1 & H2 & H3). exists y. auto.
Qed.
Lemma key_same c c' : key c = key c' -> cf_idx c = cf_idx c' /\ std_width c = std_width c' /\ cf_avg c = cf_avg c'.
Proof. unfold key. intros E. injection E as -> -> ->. auto. Qed.
Lemma combine_map_same {A B} (f : A -> B) : forall l l', map f l = map f l' -> forall a b, In (a, b) (combine l l') -> f a = f b.
Proof.
  induction l as [|x l IH]; intros [|y l'] H a b; cbn in *; try tauto. injection H as H1 H2. intros [E|Hin]; [congruence|]. eapply IH; eassumption.
Qed.
Lemma ord_pairs_in {A} (R : A -> A -> Prop) l : ForallOrdPairs R l -> forall a b, In a l -> In b l -> a = b \/ R a b \/ R b a.
Proof.
  induction 1 as [|x l Hx _ IH]; cbn; [tauto|]. rewrite Forall_forall in Hx. intros a b [<-|Ha] [<-|Hb]; auto.
Qed.
(** the pairs of two lists of which the first one is sorted *)
Lemma sorted_combine {A B} (R : A -> A -> Prop) : forall (l : list A) (l' : list B), StronglySorted R l ->
  ForallOrdPairs (fun p q => R (fst p) (fst q)) (combine l l').
Proof.
  intros l l' H. revert l'. induction H as [|x l Hl IH Hx]; intros [|y l']; cbn; try constructor; [|apply IH].
  rewrite Forall_forall in *. intros [a b] Hab. cbn. apply Hx. eapply in_combine_l. exact Hab.
Qed.
Lemma ord_pairs_and {A} (R S : A -> A -> Prop) l : ForallOrdPairs R l -> ForallOrdPairs S l -> ForallOrdPairs (fun a b => R a b /\ S a b) l.
Proof.
  induction 1 as [|x l Hx _ IH]; intros H; inversion H; subst; constructor; [|auto]. rewrite Forall_forall in *. auto.
Qed.
Lemma map_key_sorted {A B C} (f : A -> B) (g : B -> C) l : map g (map f l) = map (fun x => g (f x)) l.
Proof. apply map_map. Qed.

(** the widest column is the first one to be cut under what step 1 allows *)
Definition widest_first (l : list ColFit) : Prop :=
  forall a b, In a l -> In b l -> std_width b < std_width a -> cf_width b < floor_1 b -> cf_width a = 3.

Definition gain_1 (c : ColFit) : nat :=
  if (4 <? std_width c) && (cf_avg c + 1 <? std_width c) then Nat.min (std_width c - cf_avg c) 4 else 0.

Lemma strict_seq n : forall s, StronglySorted (fun a b => a < b) (seq s n).
Proof. induction n as [|n IH]; intros s; cbn; constructor; [apply IH|]. apply Forall_forall. intros x Hx. apply in_seq in Hx. lia. Qed.
Lemma sorted_map {A B} (f : A -> B) (R : B -> B -> Prop) l : StronglySorted R (map f l) -> StronglySorted (fun a b => R (f a) (f b)) l.
Proof.
  induction l as [|x l IH]; cbn; intros H; [constructor|]. apply StronglySorted_inv in H as [H1 H2]. constructor; [auto|].
  rewrite Forall_map in H2. exact H2.
Qed.
Lemma sorted_map_conv {A B} (f : A -> B) (R : B -> B -> Prop) l : StronglySorted (fun a b => R (f a) (f b)) l -> StronglySorted R (map f l).
Proof. induction 1; cbn; constructor; [assumption|]. rewrite Forall_map. assumption. Qed.

Lemma fit_reduced n cells a : 2 <= n -> 3 * n <= a -> a < sum (natural_widths n cells) ->
  exists l, tf_fit (mkTF (map (fun i => final_col i cells) (seq 0 n)) a) = Ret (mkTFR true (map cf_width l))
  /\ map cf_idx l = seq 0 n
  /\ Forall (fun c => 3 <= cf_width c <= std_width c /\ std_width c = natural (cells_of (cf_idx c) cells)
                     /\ average (cells_of (cf_idx c) cells) (cf_avg c)) l
  /\ wsum l = a
  /\ widest_first l
  /\ (Forall (fun c => 4 <= cf_avg c) l -> sum (natural_widths n cells) <= a + sum (map gain_1 l) ->
      Forall (fun c => cf_avg c <= cf_width c) l).
Proof.
  intros Hn Ha Hs. unfold tf_fit. cbn [cols available_sum_width].
  assert (Ec : map col_width (map (fun i => final_col i cells) (seq 0 n)) = natural_widths n cells).
  { rewrite map_map. reflexivity. }
  rewrite Ec. rewrite map_length, seq_length. destruct (Nat.leb_spec (sum (natural_widths n cells)) a); [lia|].
  destruct (Nat.eqb_spec n 0); [lia|]. destruct (Nat.eqb_spec n 1); [lia|].
  destruct (make_fits_spec cells n 0) as (l0 & -> & Hi0 & Hw0 & Hf0 & Hs0). rewrite bind_ret.
  fold (natural_widths n cells) in Hw0.
  rewrite csub_ret by lia. rewrite bind_ret. cbv zeta.
  set (e := sum (natural_widths n cells) - a).
  set (le1 := fun a b => cf_width b <=? cf_width a). set (l1 := stable_sort le1 l0).
  assert (P1 : Permutation l0 l1) by apply stable_sort_perm.
  assert (S1 : StronglySorted (fun a b => le1 a b = true) l1).
  { apply stable_sort_sorted; unfold le1; intros; lia. }
  assert (F1 : Forall fresh l1) by (rewrite <- P1; exact Hf0).
  assert (W1 : wsum l1 = sum (natural_widths n cells)).
  { unfold wsum. rewrite <- (sum_perm (Permutation_map cf_width P1)), Hw0. reflexivity. }
  destruct (potential_1_spec F1) as (uncut & -> & Hu). rewrite bind_ret. fold gain_1 in Hu.
  change (map (fun c => if (4 <? std_width c) && (cf_avg c + 1 <? std_width c) then Nat.min (std_width c - cf_avg c) 4 else 0) l1)
    with (map gain_1 l1) in Hu.
  (* after step 1 *)
  assert (T1 : exists l2 e2, (if 0 <? Nat.min uncut e then step_1 (Nat.min uncut e) uncut e l1 else Ret (l1, e)) = Ret (l2, e2)
    /\ map key l2 = map key l1 /\ Forall after_1 l2 /\ e2 <= e /\ wsum l2 + e = wsum l1 + e2
    /\ (Forall (fun c => 4 <= cf_avg c) l1 -> e <= uncut -> e2 = 0)).
  { destruct (Nat.ltb_spec 0 (Nat.min uncut e)).
    - destruct (@step_1_spec (Nat.min uncut e) uncut ltac:(lia) ltac:(lia) l1 e F1) as (l2 & e2 & E & Hk & Hf & He & Hw).
      exists l2, e2. split; [exact E|]. split; [exact Hk|]. split; [exact Hf|]. split; [exact He|]. split; [exact Hw|].
      intros Ha4 Hle. destruct (@step_1_enough (Nat.min uncut e) uncut ltac:(lia) ltac:(lia) l1 e F1 Ha4 ltac:(lia)) as (l' & E').
      + rewrite Nat.min_r by lia. rewrite (Nat.mul_comm uncut). apply Nat.mul_le_mono_l.
        rewrite Hu. clear. induction l1 as [|c l IH]; cbn [map sum]; [lia|]. unfold gain_1 at 1, eligible at 1.
        destruct ((4 <? std_width c) && (cf_avg c + 1 <? std_width c)) eqn:E1, ((4 <? std_width c) && (cf_avg c <? std_width c)) eqn:E2; lia.
      + congruence.
    - exists l1, e. split; [reflexivity|]. split; [reflexivity|]. split; [eapply Forall_impl; [apply fresh_after|exact F1]|].
      split; [lia|]. split; [lia|]. intros. unfold e. lia. }
  destruct T1 as (l2 & e2 & -> & Hk2 & Hf2 & He2 & Hw2 & Henough). rewrite bind_ret.
  assert (Len : length l2 = n).
  { transitivity (length (map key l2)); [rewrite map_length; reflexivity|]. rewrite Hk2, map_length.
    rewrite <- (Permutation_length P1). rewrite <- (map_length cf_idx), Hi0, seq_length. reflexivity. }
  (* after step 2 *)
  assert (T2 : exists l3, (if 0 <? e2 then s <- sum_over_3 l2 ;; step_2 e2 (Nat.min s e2) e2 l2 else Ret (l2, e2)) = Ret (l3, 0)
    /\ map key l3 = map key l2 /\ Forall2 (fun c c' => 3 <= cf_width c' <= cf_width c) l2 l3 /\ wsum l3 = a
    /\ ForallOrdPairs (fun p q => cf_width (snd q) < cf_width (fst q) -> cf_width (snd p) = 3) (combine l2 l3)
    /\ (e2 = 0 -> l3 = l2)).
  { assert (H3 : Forall (fun c => 3 <= cf_width c) l2) by (eapply Forall_impl; [|exact Hf2]; intros c Hc; apply Hc).
    destruct (Nat.ltb_spec 0 e2).
    - destruct (sum_over_3_spec H3) as (s & -> & Hsum). rewrite bind_ret.
      assert (e2 <= s). { rewrite Len in Hsum. unfold e in *. lia. }
      rewrite Nat.min_r by lia.
      destruct (@step_2_spec e2 ltac:(lia) l2 e2 ltac:(lia) H3) as (l3 & e3 & -> & Hk3 & Hf3 & He3 & Hw3 & Ho).
      assert (Es : sum (map (fun c => cf_width c - 3) l2) = s).
      { pose proof (sum_minus_3 H3). lia. }
      exists l3. assert (e3 = 0) as -> by lia. split; [reflexivity|]. split; [exact Hk3|]. split; [exact Hf3|]. split; [unfold e in *; lia|].
      split; [exact Ho|lia].
    - assert (e2 = 0) as -> by lia. exists l2. split; [reflexivity|]. split; [reflexivity|].
      split; [clear -H3; induction H3; constructor; [lia|assumption]|]. split; [unfold e in *; lia|]. split; [|reflexivity].
      assert (Hsame : forall p, In p (combine l2 l2) -> cf_width (snd p) = cf_width (fst p)).
      { clear. induction l2 as [|x l IH]; cbn; [tauto|]. intros p [<-|H]; [reflexivity|auto]. }
      revert Hsame. generalize (combine l2 l2). intros m. induction m as [|p m IHm]; intros Hs'; constructor.
      * apply Forall_forall. intros q Hq Hlt. specialize (Hs' q (or_intror Hq)). lia.
      * apply IHm. intros q Hq. apply Hs'. right. exact Hq. }
  destruct T2 as (l3 & -> & Hk3 & Hf3 & Hw3 & Ho & Hl32). rewrite bind_ret.
  set (le2 := fun a b => cf_idx a <=? cf_idx b). set (l4 := stable_sort le2 l3).
  assert (P4 : Permutation l3 l4) by apply stable_sort_perm.
  assert (K1 : forall c c', key c = key c' -> gain_1 c = gain_1 c' /\ floor_1 c = floor_1 c' /\ std_width c = std_width c').
  { intros c c' E. apply key_same in E as (E1 & E2 & E3). unfold gain_1, floor_1. rewrite E2, E3. auto. }
  assert (Kp : Permutation (map key l4) (map key l0)).
  { rewrite <- P4, Hk3, Hk2. apply Permutation_map. symmetry. exact P1. }
  assert (K4 : map key l4 = map key l0).
  { apply (@sorted_unique _ (fun k => fst (fst k))); [| |exact Kp].
    - apply sorted_map_conv. cbn. assert (S4 : StronglySorted (fun a b => le2 a b = true) l4) by (apply stable_sort_sorted; unfold le2; intros; lia).
      clear -S4. induction S4; constructor; [assumption|]. eapply Forall_impl; [|eassumption]. unfold le2. cbn. intros; lia.
    - apply sorted_map_conv. cbn. apply (@sorted_map _ _ cf_idx lt). rewrite Hi0. apply strict_seq. }
  assert (A3 : forall c, In c l3 -> exists c2, In (c2, c) (combine l2 l3) /\ In c2 l2 /\ key c2 = key c /\ 3 <= cf_width c <= cf_width c2 /\ after_1 c2).
  { intros c Hc. destruct (Forall2_in_r Hf3 _ Hc) as (c2 & H1 & H2 & H3). exists c2. split; [exact H1|]. split; [exact H2|].
    split; [eapply (combine_map_same key); [symmetry; exact Hk3|exact H1]|]. split; [exact H3|]. rewrite Forall_forall in Hf2. auto. }
  exists l4. split; [reflexivity|]. split; [rewrite <- Hi0; apply key_fields; exact K4|]. split; [|split; [|split]].
  - apply Forall_forall. intros c Hc.
    assert (Hc3 : In c l3) by (eapply Permutation_in; [symmetry; exact P4|exact Hc]).
    destruct (A3 c Hc3) as (c2 & _ & _ & Ek & Hw & (Hb & _)). apply K1 in Ek as (_ & _ & Es).
    split; [lia|].
    assert (Hk : In (key c) (map key l0)) by (rewrite <- K4; apply in_map; exact Hc). apply in_map_iff in Hk as (c0 & Ek0 & Hc0).
    rewrite Forall_forall in Hs0. specialize (Hs0 _ Hc0). apply key_same in Ek0 as (<- & <- & <-). exact Hs0.
  - unfold wsum in *. rewrite <- Hw3. symmetry. apply sum_perm, Permutation_map, P4.
  - intros x y Hx Hy Hlt Hcut.
    assert (Hx3 : In x l3) by (eapply Permutation_in; [symmetry; exact P4|exact Hx]).
    assert (Hy3 : In y l3) by (eapply Permutation_in; [symmetry; exact P4|exact Hy]).
    destruct (A3 x Hx3) as (x2 & Hx2 & _ & Ekx & Hwx & _). destruct (A3 y Hy3) as (y2 & Hy2 & _ & Eky & Hwy & (Hby & _)).
    apply K1 in Ekx as (_ & _ & Esx). apply K1 in Eky as (_ & Efy & Esy).
    assert (S2 : StronglySorted (fun a b => std_width b <= std_width a) l2).
    { apply (@sorted_map _ _ key (fun a b => snd (fst b) <= snd (fst a))). rewrite Hk2. apply sorted_map_conv. cbn.
      clear -S1 F1. induction S1 as [|z l Hl IH Hz]; inversion F1 as [|? ? (Hz1 & _) F1']; subst; constructor; [auto|].
      rewrite Forall_forall in *. intros q Hq. specialize (Hz _ Hq). destruct (F1' _ Hq) as (Hq1 & _). unfold le1 in Hz. lia. }
    pose proof (ord_pairs_and (@sorted_combine _ _ _ l2 l3 S2) Ho) as Hall.
    destruct (ord_pairs_in Hall _ _ Hx2 Hy2) as [E|[[_ H1]|[H1 _]]].
    + injection E as -> ->. lia.
    + cbn in H1. apply H1. lia.
    + cbn in H1. lia.
  - intros Ha4 Hg. 
    assert (Hg1 : sum (map gain_1 l4) = uncut).
    { assert (E : forall l l', map key l = map key l' -> map gain_1 l = map gain_1 l').
      { clear -K1. induction l as [|c l IH]; intros [|c' l'] H; cbn in *; try discriminate; [reflexivity|]. injection H as H1 H2.
        f_equal; [apply K1; unfold key; congruence|auto]. }
      rewrite (E _ _ K4), Hu. apply sum_perm, Permutation_map, P1. }
    assert (e2 = 0).
    { apply Henough; [|unfold e; lia]. apply Forall_forall. intros c Hc.
      assert (Hk : In (key c) (map key l4)). { rewrite K4. apply in_map. eapply Permutation_in; [symmetry; exact P1|exact Hc]. }
      apply in_map_iff in Hk as (c4 & Ek & Hc4). apply key_same in Ek as (_ & _ & <-). rewrite Forall_forall in Ha4. auto. }
    assert (l3 = l2) by auto. subst l3. rewrite <- P4. eapply Forall_impl; [|exact Hf2]. intros c Hc. unfold after_1, floor_1 in Hc. lia.
Qed.
