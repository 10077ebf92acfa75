(** * A selection changes nothing until it's deleted (C93) *)
From Verif Require Import Base L_Base M_Content S_Content S_Safe L_Content L_Content2 L_Content3 P_Safe S_Editor L_Editor P_Editor S_Held Demo.
Set Implicit Arguments.
Open Scope nat_scope.

Lemma view_sim a b : cpos a = cpos b -> clines a = clines b -> view a = view b.
Proof. intros P L. unfold view, cursor, offset, text. rewrite P, L. reflexivity. Qed.
Lemma loose_free c : loose c -> unselected (set_ctail c None).
Proof. intros L. split; [apply loose_none, L|reflexivity]. Qed.

Lemma word_bool u ch : (is_alnum u ch || N.eqb ch 95)%bool = true <-> is_alnum u ch = true \/ ch = 95%N.
Proof. rewrite Bool.orb_true_iff, N.eqb_eq. reflexivity. Qed.
Lemma word_run_at u s n : word_run u s = n -> (forall i, i < n -> word_char_at u s i) /\ ~ word_char_at u s n.
Proof.
  revert n. induction s as [|ch s IH]; intros n E; cbn [word_run] in E.
  - subst n. split; [intros; lia|]. intros (x & E & _). discriminate.
  - destruct (is_alnum u ch || N.eqb ch 95)%bool eqn:W.
    + subst n. destruct (IH _ eq_refl) as (A & B). split.
      * intros [|i] L; [exists ch; split; [reflexivity|apply word_bool, W]|]. destruct (A i) as (x & E & F); [lia|]. exists x. auto.
      * intros (x & E & F). apply B. exists x. auto.
    + subst n. split; [intros; lia|]. intros (x & E & F). injection E as <-. apply word_bool in F. congruence.
Qed.
Lemma word_at_app u a b i : word_char_at u (a ++ b) (length a + i) <-> word_char_at u b i.
Proof. unfold word_char_at. rewrite nth_error_app2 by lia. replace (length a + i - length a) with i by lia. reflexivity. Qed.

Lemma step_select_word u c : unselected c ->
  exists c', select_word_around u c = Ret (c', snd (e_select_word u (view c))) /\ valid c' /\ view c' = fst (e_select_word u (view c)).
Proof.
  intros U. pose proof U as (V & T). destruct (view_parts U) as (pre & l1 & l2 & post & P). destruct (lines_parts P) as (Ls & Cp & Nt). pose proof (before_len P) as BL.
  destruct (@select_word_spec u c (l1 ++ l2) V Nt) as (A & B). rewrite Cp in A, B. cbn [px py] in A, B. unfold e_select_word. rewrite (p_right P), BL.
  destruct (word_run u l2) as [|n] eqn:W; destruct (word_run_at _ _ W) as (W1 & W2).
  - exists c. split; [apply A|split; [exact V|reflexivity]]. intros X. apply W2. rewrite <- (word_at_app u l1). rewrite Nat.add_0_r. exact X.
  - destruct B as (c' & s & E & V' & L & Tl & Y & Lx & Wx & _ & E2).
    { rewrite <- (Nat.add_0_r (length l1)). apply word_at_app, W1. lia. }
    exists c'. split; [exact E|]. split; [exact V'|]. assert (X : px (cpos c') = length l1 + n).
    { destruct (Nat.lt_trichotomy (px (cpos c')) (length l1 + n)) as [H|[H|H]]; [|exact H|].
      - exfalso. apply E2. replace (S (px (cpos c'))) with (length l1 + (S (px (cpos c')) - length l1)) by lia. apply word_at_app, W1. lia.
      - exfalso. apply W2. apply (word_at_app u l1). apply Wx. lia. }
    cbn [fst go]. rewrite whole_view. unfold view, text. rewrite L. f_equal.
    change (cursor c') with (cursor (set_ctail c' None)).
    rewrite (@cursor_row c (set_ctail c' None) _ _ _ _ (px (cpos c')) P); [lia| |cbn; rewrite <- Y; destruct (cpos c'); reflexivity].
    split; [exact L|symmetry; exact T].
Qed.

(** ** The theorems *)

(** What an operation does to the text and to the cursor, and what it tells, doesn't depend on the selection; only
    [del_selection] does *)
Theorem C93_step : forall u o f c, h_apply u o = Some f -> loose c ->
  exists c', capply u o c = Ret (c', snd (f (view c))) /\ loose c' /\ view c' = fst (f (view c)).
Proof.
  intros u o f c F L. pose proof (loose_free L) as U. set (a := set_ctail c None) in *.
  assert (Va : view a = view c) by (apply view_sim; reflexivity).
  assert (SA : sim a c) by (split; [reflexivity|split; [reflexivity|exact (proj1 (proj2 (proj2 L)))]]).
  destruct (Bool.bool_dec (match o with OpMakeSelection | OpSetTail _ => true | _ => false end) true) as [M|M].
  - assert (G : exists t c', capply u o c = Ret (c', true) /\ c' = set_ctail c (Some t)).
    { destruct o; try discriminate M.
      - cbn [capply]. unfold make_selection. destruct (ctail c) as [t|] eqn:T; eexists _, _; (split; [reflexivity|]); [|reflexivity]. destruct c; cbn in *; subst; reflexivity.
      - destruct (@C01_exact u (OpSetTail p) c L) as (_ & X). destruct X as (c' & b & X & _); [intros (Q & _); discriminate|]. cbn [capply] in X. unfold with_true in X.
        apply bind_Ret_inv in X as (c1 & X & Q). injection Q as <- <-. cbn [capply]. unfold with_true. rewrite X. cbn [bind].
        unfold set_selection_tail in X. repeat match type of X with
          | (if ?b then _ else _) = _ => destruct b
          | bind _ _ = _ => let q := fresh "q" in apply bind_Ret_inv in X as (q & _ & X)
          end; injection X as <-; eexists _, _; split; reflexivity. }
    destruct G as (t & c' & E & Q). destruct (@C01_exact u o c L) as (_ & X). destruct X as (c2 & b & X & L2); [intros (-> & _); discriminate M|].
    rewrite E in X. injection X as <- <-. exists c'. assert (H : f (view c) = (view c, true)) by (destruct o; try discriminate M; injection F as <-; reflexivity).
    rewrite H. split; [exact E|]. split; [exact L2|]. apply view_sim; rewrite Q; reflexivity.
  - assert (G : exists a' , capply u o a = Ret (a', snd (f (view c))) /\ valid a' /\ view a' = fst (f (view c))).
    { rewrite <- Va. destruct (e_apply u o) as [g|] eqn:EA.
      - assert (f = g) by (destruct o; cbn [h_apply e_apply] in F, EA; try discriminate; injection F as <-; injection EA as <-; reflexivity). subst g. destruct (C90_step _ _ EA U) as (a' & E & (V & _) & W). eauto.
      - destruct o; try discriminate; try (exfalso; apply M; reflexivity). injection F as <-. apply step_select_word, U. }
    destruct G as (a' & E & V & W).
    eapply op_sim with (b := c) in E; [| | | | | |exact SA].
    + destruct E as (c' & E & S'). exists c'. split; [exact E|]. split; [eapply loose_sim; eassumption|]. rewrite <- W. symmetry. apply view_sim; apply S'.
    + intros ->. discriminate.
    + intros ->. apply M. reflexivity.
    + intros p ->. apply M. reflexivity.
    + exact (proj1 L).
    + exact (proj1 (proj2 L)).
Qed.
Print Assumptions C93_step.
(** A selection of just one place is as no selection *)
Theorem C93_narrow : forall u c, loose c -> has_wide_selection c = false ->
  exists c', capply u OpDelSelection c = Ret (c', snd (e_delete_below (view c))) /\ loose c' /\ view c' = fst (e_delete_below (view c)).
Proof.
  intros u c L W. destruct (@C93_step u OpDelBelow _ c eq_refl L) as (c' & E & R). exists c'. split; [|exact R]. rewrite <- E. cbn [capply].
  unfold del_selection. unfold has_wide_selection in W. unfold selection. destruct (ctail c) as [t|]; [|cbn [rmin rmax]; rewrite !Nat.eqb_refl; reflexivity].
  assert (Q : t = cpos c). { unfold pos_eqb in W. destruct t as [y x], (cpos c) as [y' x']. cbn in W. f_equal; lia. }
  subst t. assert (N : pos_ltb (cpos c) (cpos c) = false) by (unfold pos_ltb; rewrite !Nat.ltb_irrefl, ?Nat.eqb_refl; reflexivity).
  rewrite N. cbn [rmin rmax]. rewrite !Nat.eqb_refl. reflexivity.
Qed.
Print Assumptions C93_narrow.
(** Whole histories, as long as no selection is deleted *)
Theorem C93_histories : forall u ops c, loose c -> ~ In OpDelSelection ops ->
  exists c', crun u ops c = Ret c' /\ loose c' /\ view c' = h_run u ops (view c).
Proof.
  intros u ops. induction ops as [|o ops IH]; intros c L N; [exists c; auto|].
  assert (F : exists f, h_apply u o = Some f) by (destruct o; try (eexists; reflexivity); exfalso; apply N; left; reflexivity).
  destruct F as (f & F). destruct (C93_step _ _ F L) as (c1 & E1 & L1 & V1). cbn [crun h_run]. rewrite E1, F. cbn [bind].
  destruct (IH c1 L1) as (c' & E & L' & V'); [intros I; apply N; right; exact I|]. exists c'. rewrite <- V1. auto.
Qed.
Print Assumptions C93_histories.
(** So selecting, unselecting, and the selection there was before, change nothing to the text, as long as no selection
    is deleted *)
Theorem C93_unselected : forall u ops c c', loose c -> ~ In OpDelSelection ops -> crun u ops c = Ret c' ->
  exists c'', crun u ops (unselect c) = Ret c'' /\ text c'' = text c' /\ cursor c'' = cursor c'.
Proof.
  intros u ops c c' L N E. destruct (C93_histories u ops L N) as (x & Ex & Lx & Vx). rewrite E in Ex. injection Ex as <-.
  pose proof (loose_free L) as U. assert (L2 : loose (unselect c)) by (apply loose_valid, U).
  destruct (C93_histories u ops L2 N) as (y & Ey & Ly & Vy). exists y. split; [exact Ey|].
  assert (H : view y = view c') by (rewrite Vx, Vy; f_equal; apply view_sim; reflexivity).
  assert (B : forall c0, loose c0 -> length (before (view c0)) = cursor c0).
  { intros c0 L0. replace (view c0) with (view (set_ctail c0 None)) by (apply view_sim; reflexivity). rewrite before_length by (apply loose_none, L0). reflexivity. }
  rewrite <- !whole_view, H. split; [reflexivity|]. rewrite <- (B _ Ly), <- (B _ Lx), H. reflexivity.
Qed.
Print Assumptions C93_unselected.

(** ** Example *)

(** "ab_c d", the cursor on the "b": the word is selected, then a char is typed (before the last char of the word), and
    the selection is still there *)
Definition held : content := mkContent (mkPos 0 1) None [[97; 98; 95; 99; 32; 100]]%N.
Example C93_example : loose held /\ ~ In OpDelSelection [OpSelectWord; OpInsertChar 122%N]
  /\ crun demo [OpSelectWord; OpInsertChar 122%N] held = Ret (mkContent (mkPos 0 4) (Some (mkPos 0 0)) [[97; 98; 95; 122; 99; 32; 100]]%N)
  /\ h_run demo [OpSelectWord; OpInsertChar 122%N] (view held) = mkEd [97; 98; 95; 122]%N [99; 32; 100]%N.
Proof.
  split; [|split; [intros [H|[H|[]]]; discriminate|split; vm_compute; reflexivity]].
  refine (conj _ (conj _ (conj _ _))); [discriminate| |discriminate|].
  - eexists. split; [reflexivity|]. cbn. lia.
  - intros l ch [<-|[]] I. cbn in I. repeat (destruct I as [<-|I]; [vm_compute; repeat split; discriminate|]). destruct I.
Qed.
