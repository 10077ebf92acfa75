(** * Which texts can't be formatted, exactly (C26, C32) *)
From Verif Require Import Base L_Base M_Style M_Fit M_Wrap S_Wrap L_Wrap P_Wrap M_TblFit S_TblFit L_TblFit P_TblFit M_Text S_Text L_Text L_Text2 L_Text3 P_Text S_Exact Demo.
Set Implicit Arguments.
Open Scope nat_scope.

(** ** Wrapping *)

Lemma composite_stuck u k fc width : 3 <= width -> width < visible_length fc -> width < lead k (fc_kind fc) -> hard_wrap_composite u k fc width = Panic.
Proof.
  intros H3 Hv Hl. unfold hard_wrap_composite. rewrite kind_widths. rewrite (proj2 (Nat.ltb_ge _ _)) by lia. rewrite (proj2 (Nat.leb_gt _ _)) by lia. cbv zeta.
  assert (E : clean_cut u (lead k (fc_kind fc)) (lead k (next_kind (fc_kind fc))) width (fc_compounds fc) = None).
  { unfold clean_cut. destruct (fc_compounds fc) as [|a [|b [|c [|]]]]; try reflexivity; rewrite (proj2 (Nat.leb_gt (strw u (src a) + _) _)) by lia; reflexivity. }
  rewrite E. unfold csub. rewrite (proj2 (Nat.leb_gt _ _)) by lia. reflexivity.
Qed.

(** Wrapping lines panics exactly when there's a line too large whose bullet doesn't fit *)
Theorem C26_exact : forall u k lines width, skin_ok k -> Forall good_line lines -> 3 <= width ->
  (hard_wrap_lines u k lines width = Panic <-> Exists (stuck_line k width) lines)
  /\ (~ Exists (stuck_line k width) lines -> exists lines', hard_wrap_lines u k lines width = Ret (Some lines')).
Proof.
  intros u k lines width Hk Hg H3. induction Hg as [|l lines Hl _ (IH1 & IH2)]; [split; [split; [discriminate|intros X; inversion X]|exists []; reflexivity]|].
  assert (D : stuck_line k width l \/ ~ stuck_line k width l).
  { destruct l as [fc| | |]; cbn [stuck_line]; auto. destruct (line_style_ret Hk Hl) as (ls & Els). destruct (margins_in ls (Some width)) as (lm, rm) eqn:Em.
    assert (U : forall x y, margins_of k (fc_kind fc) width x y -> x = lm /\ y = rm) by (intros x y (ls' & E1 & E2); rewrite Els in E1; injection E1 as <-; rewrite Em in E2; injection E2 as <- <-; auto).
    destruct (Nat.lt_ge_cases width (visible_length fc + lm + rm)); [destruct (Nat.lt_ge_cases width (lead k (fc_kind fc) + lm + rm))|].
    - left. exists lm, rm. repeat split; auto. exists ls. auto.
    - right. intros (x & y & M & A & B). apply U in M as (-> & ->). lia.
    - right. intros (x & y & M & A & B). apply U in M as (-> & ->). lia. }
  destruct D as [D|D].
  - assert (E : hard_wrap_lines u k (l :: lines) width = Panic).
    { destruct l as [fc| | |]; try contradiction. destruct D as (lm & rm & (ls & Els & Em) & A & B). cbn [hard_wrap_lines]. rewrite Els, bind_ret, Em. rewrite (proj2 (Nat.leb_gt _ _)) by lia.
      assert (Hm : 3 + lm + rm <= width). { cbn [margins_in] in Em. destruct (Nat.ltb_spec width (left_margin ls + right_margin ls + 3)); injection Em as <- <-; lia. }
      rewrite csub_ret, bind_ret by lia. rewrite csub_ret, bind_ret by lia. rewrite composite_stuck by lia. reflexivity. }
    split; [split; [constructor; exact D|intros _; exact E]|]. intros N. destruct N. constructor. exact D.
  - assert (E : (exists o, hard_wrap_lines u k lines width = Ret (Some o)) -> exists o, hard_wrap_lines u k (l :: lines) width = Ret (Some o)).
    { intros (o & E). destruct l as [fc|cells|r|]; cbn [hard_wrap_lines]; try (rewrite E; eexists; reflexivity). destruct (line_style_ret Hk Hl) as (ls & Els). rewrite Els, bind_ret. destruct (margins_in ls (Some width)) as (lm, rm) eqn:Em.
      destruct (Nat.leb_spec (visible_length fc + lm + rm) width); [rewrite E; eexists; reflexivity|].
      assert (Hm : 3 + lm + rm <= width). { cbn [margins_in] in Em. destruct (Nat.ltb_spec width (left_margin ls + right_margin ls + 3)); injection Em as <- <-; lia. }
      assert (Hlead : lead k (fc_kind fc) + lm + rm <= width). { destruct (Nat.le_gt_cases (lead k (fc_kind fc) + lm + rm) width); [assumption|]. destruct D. exists lm, rm. repeat split; auto. exists ls. auto. }
      rewrite csub_ret, bind_ret by lia. rewrite csub_ret, bind_ret by lia. destruct (C26_composite u k fc (width - lm - rm)) as [_ H']. destruct H' as (fcs & ->); [lia..|]. rewrite bind_ret, E. eexists. reflexivity. }
    assert (E2 : hard_wrap_lines u k lines width = Panic -> hard_wrap_lines u k (l :: lines) width = Panic).
    { intros E2. destruct l as [fc|cells|r|]; cbn [hard_wrap_lines]; try (rewrite E2; reflexivity). destruct (line_style_ret Hk Hl) as (ls & Els). rewrite Els, bind_ret. destruct (margins_in ls (Some width)) as (lm, rm) eqn:Em.
      destruct (Nat.leb_spec (visible_length fc + lm + rm) width); [rewrite E2; reflexivity|].
      assert (Hm : 3 + lm + rm <= width). { cbn [margins_in] in Em. destruct (Nat.ltb_spec width (left_margin ls + right_margin ls + 3)); injection Em as <- <-; lia. }
      assert (Hlead : lead k (fc_kind fc) + lm + rm <= width). { destruct (Nat.le_gt_cases (lead k (fc_kind fc) + lm + rm) width); [assumption|]. destruct D. exists lm, rm. repeat split; auto. exists ls. auto. }
      rewrite csub_ret, bind_ret by lia. rewrite csub_ret, bind_ret by lia. destruct (C26_composite u k fc (width - lm - rm)) as [_ H']. destruct H' as (fcs & ->); [lia..|]. rewrite bind_ret, E2. reflexivity. }
    split.
    + split.
      * intros E'. right. apply IH1. destruct (hard_wrap_lines u k lines width) as [[o|]| |] eqn:F; try reflexivity; exfalso.
        -- destruct E as (o' & E); [eauto|]. congruence.
        -- destruct IH2 as (? & ?); [|discriminate]. intros X. apply IH1 in X. discriminate.
        -- destruct IH2 as (? & ?); [|discriminate]. intros X. apply IH1 in X. discriminate.
      * intros X. inversion X as [? ? Y|? ? Y]; subst; [contradiction|]. apply E2, IH1, Y.
    + intros N. apply E, IH2. intros X. apply N. right. exact X.
Qed.
Print Assumptions C26_exact.
Example C26_exact_example : skin_ok skin_default /\ stuck_line skin_default 3 (Normal (item 2 [97;98]%N)) /\ ~ stuck_line skin_default 3 (Normal (item 1 [97;98]%N)).
Proof.
  split; [reflexivity|]. split; [exists 0, 0; split; [eexists; split; reflexivity|cbn; lia]|]. intros (lm & rm & (ls & E1 & E2) & A & B). injection E1 as <-. injection E2 as <- <-. cbn in B. lia.
Qed.

(** ** Tables *)

Lemma aligned_rows removed ws f als r r' : aligned removed ws f als r r' -> forall cells, In (TableRow cells) r -> length ws <= length cells.
Proof. induction 1 as [|f als cells0 r r' H _ IH|f als rule r r' pos H1 H2 H3 _ IH]; intros cells I; [destruct I|..]; destruct I as [I|I]; try congruence; auto. Qed.
Lemma nb_more_pos css : 0 < nb_more css -> exists a b r, In (a :: b :: r) css.
Proof.
  unfold nb_more. induction css as [|ls css IH]; cbn; [lia|]. intros H. destruct ls as [|a [|b r]]; cbn in H; try (destruct IH as (a' & b' & r' & I); [lia|]; exists a', b', r'; right; exact I). exists a, b, r. left. reflexivity.
Qed.
Lemma nb_more_in css a b r : In (a :: b :: r) css -> 0 < nb_more css.
Proof.
  intros I. assert (X : length (tl (a :: b :: r)) <= nb_more css) by (apply fold_max_in; apply (in_map (fun ls => length (tl ls))); exact I). cbn [tl length] in X. lia.
Qed.
Lemma cell_lines_more u k c a b r : cell_lines u k c 3 = Ret (a :: b :: r) <-> needs_lines u k c /\ hard_wrap_composite u k c 3 = Ret (Some (a :: b :: r)).
Proof.
  unfold cell_lines, needs_lines. destruct (Nat.ltb_spec 3 (visible_length c)).
  - split.
    + intros E. apply bind_Ret_inv in E as ([[|x y]|] & E & F); try discriminate. injection F as -> ->. split; [split; [assumption|eauto]|exact E].
    + intros (_ & E). rewrite E. reflexivity.
  - split; [discriminate|lia].
Qed.
Lemma cells_lines_in u k n cells css : length cells <= n -> cells_lines u k (repeat 3 n) cells css -> forall c ls, (In c cells -> cell_lines u k c 3 = Ret ls -> In ls css) /\ (In ls css -> exists c, In c cells /\ cell_lines u k c 3 = Ret ls).
Proof.
  unfold cells_lines. revert n css. induction cells as [|x cells IH]; intros n css L H c ls.
  - destruct n; cbn in H; inversion H; split; intros []; discriminate.
  - destruct n as [|n]; cbn in L; [lia|]. cbn in H. inversion H as [|? ls0 ? css' E H']; subst. destruct (IH n css' ltac:(lia) H' c ls) as (A & B). split.
    + intros [->|I] E'; [left; cbn in E; congruence|right; auto].
    + intros [->|I]; [exists x; split; [left; reflexivity|exact E]|]. destruct (B I) as (c' & I' & E'). exists c'. split; [right|]; assumption.
Qed.

Lemma laid_not_stuck u k width t t' : laid_out u k width t t' -> ~ stuck_table u k width t.
Proof.
  intros H (Hw & cells & c & I & L & Ic & N). destruct H as [[H|H] _|ws gs _ H|ws gs _ -> G A]; [lia..|].
  assert (F : exists g, In g gs /\ row_group u k (repeat 3 ((width - 1) / 4)) (TableRow cells) g).
  { clear - G I. induction G as [|l g t gs Hg _ IH]; [destruct I|]. destruct I as [->|I]; [exists g; cbn; auto|]. destruct (IH I) as (g' & I' & E). exists g'. cbn. auto. }
  destruct F as (g & Ig & css & Hc & ->). rewrite repeat_length in *. rewrite firstn_all2 in Hc by lia.
  assert (Lc : length css = length cells) by (eapply cells_lines_length; [exact Hc|rewrite repeat_length; lia]).
  destruct N as (N1 & a & b & r & E). assert (Il : In (a :: b :: r) css).
  { eapply (cells_lines_in (n := (width - 1) / 4)); [|exact Hc|exact Ic|]; [lia|]. apply cell_lines_more. split; [split; [exact N1|eauto]|exact E]. }
  apply nb_more_in in Il. assert (X : In (TableRow (map (fun ls => nth_or_new 0 (tl ls)) css)) (concat gs)).
  { apply in_concat. eexists. split; [exact Ig|]. right. fold (nb_more css). destruct (nb_more css) as [|m]; [lia|]. left. reflexivity. }
  apply (aligned_rows A) in X. rewrite map_length, repeat_length in X. lia.
Qed.

Lemma laid_exists u k width t : Forall (fun l => is_table l = true) t -> Forall (plain_cells k) t -> ~ stuck_table u k width t -> exists t', laid_out u k width t t'.
Proof.
  intros Ht Hlead Hs. destruct (Nat.eq_dec (table_cols t) 0) as [E0|N0]; [exists t; constructor; auto|].
  destruct (Nat.eq_dec width 0) as [Ew|Nw]; [exists t; constructor; auto|].
  destruct (Nat.le_gt_cases (4 * table_cols t + 1) width) as [L|L].
  { apply laid_some; [exact Ht|]. eapply Forall_impl; [|exact Hlead]. intros [|cells| |]; cbn; auto. }
  set (ws := repeat 3 ((width - 1) / 4)). assert (H3 : Forall (fun w => 3 <= w) ws) by (apply Forall_forall; intros w Hin; apply repeat_spec in Hin; lia).
  assert (Hlen : length ws = (width - 1) / 4) by apply repeat_length.
  destruct (laid_pre ((width - 1) / 4) Ht) as (_ & _ & P3). destruct (@row_groups_some u k ws t H3 Hlead) as (gs & HF).
  assert (HA : Forall (line_full true (length ws)) (concat gs)).
  { rewrite <- Hlen in P3. assert (Hs' : forall cells, In (TableRow cells) t -> length cells < length ws -> forall c, In c cells -> ~ needs_lines u k c).
    { intros cells I Lt c Ic N. apply Hs. split; [lia|]. exists cells, c. rewrite <- Hlen. auto. }
    clear - HF Ht P3 Hs' Hlen. induction HF as [|l g t gs Hg _ IH]; [constructor|]. inversion P3; subst. inversion Ht; subst. cbn [concat]. apply Forall_app. split; [|apply IH; auto; intros; eapply Hs'; [right|..]; eassumption].
    destruct l as [|cells|ru|]; try discriminate; cbn [row_group] in *.
    - destruct Hg as (css & Hc & ->). eapply group_full; [exact Hc|]. destruct (Nat.le_gt_cases (length ws) (length cells)) as [Le|Lt]; [left; exact Le|right].
      destruct (Nat.eq_dec (nb_more css) 0) as [|Nz]; [assumption|exfalso]. destruct (@nb_more_pos css) as (a & b & r & I); [lia|]. rewrite firstn_all2 in Hc by lia. unfold ws in Hc.
      assert (Ln : length cells <= (width - 1) / 4) by (clear - Lt Hlen; lia).
      destruct (proj2 (@cells_lines_in u k _ cells css Ln Hc fc_new (a :: b :: r)) I) as (c & Ic & E). apply cell_lines_more in E as (N & _). eapply Hs'; [left; reflexivity|exact Lt|exact Ic|exact N].
    - subst g. constructor; [|constructor]. assumption. }
  destruct (@aligned_some true ws (concat gs) true (repeat Center (length ws)) HA) as (t' & E). exists t'.
  eapply lo_cut; [lia|reflexivity|exact HF|exact E].
Qed.

Lemma by_runs_all {A} (p : A -> bool) (P : list A -> Prop) (R : list A -> list A -> Prop) : (forall t t', R t t' -> P t) -> forall l l', by_runs p R l l' -> all_runs p P l.
Proof. intros H l l'. induction 1 as [|x a b Hx _ IH|t t' a b Hn Ht Ha HR _ IH]; constructor; eauto. Qed.
Lemma by_runs_some2 {A} (p : A -> bool) (P : list A -> Prop) (Q : A -> Prop) (R : list A -> list A -> Prop) : (forall t, Forall (fun l => p l = true) t -> Forall Q t -> P t -> exists t', R t t') ->
  forall l, all_runs p P l -> Forall Q l -> exists l', by_runs p R l l'.
Proof.
  intros H l. induction 1 as [|x l Hx _ IH|t a Hn Ht Ha HP _ IH]; intros F; [exists []; constructor|..].
  - inversion F; subst. destruct IH as (l' & IH); [assumption|]. exists (x :: l'). constructor; assumption.
  - apply Forall_app in F as (F1 & F2). destruct IH as (l' & IH); [assumption|]. destruct (H t Ht F1 HP) as (t' & HR). exists (t' ++ l'). constructor; assumption.
Qed.

(** No loop of the formatting is modelled with fuel *)
Lemma nf_bind {A B} (m : outcome A) (f : A -> outcome B) : m <> OutOfFuel -> (forall a, f a <> OutOfFuel) -> bind m f <> OutOfFuel.
Proof. intros H K. destruct m; cbn; congruence || apply K. Qed.
Lemma nf_csub a b : csub a b <> OutOfFuel. Proof. unfold csub. destruct (_ <=? _); discriminate. Qed.
Lemma nf_idx {A} (l : list A) i : idx l i <> OutOfFuel. Proof. unfold idx. destruct (nth_error _ _); discriminate. Qed.
Lemma nf_insert {A} i (a : A) l : vec_insert i a l <> OutOfFuel. Proof. unfold vec_insert. destruct (_ <=? _); discriminate. Qed.
Lemma nf_remove {A} i (l : list A) : vec_remove i l <> OutOfFuel. Proof. unfold vec_remove. destruct (nth_error _ _); discriminate. Qed.
Lemma nf_div a b : div_ceil a b <> OutOfFuel. Proof. unfold div_ceil. destruct (_ =? _); discriminate. Qed.
Lemma nf_copy {A} n (a b : list A) : copy_slice n a b <> OutOfFuel. Proof. unfold copy_slice. destruct (_ && _)%bool; discriminate. Qed.
Lemma nf_prefix s : forall n, byte_prefix s n <> OutOfFuel.
Proof. induction s as [|c s IH]; intros [|n]; cbn [byte_prefix]; try discriminate. destruct (_ <=? _); [apply nf_bind; [apply IH|discriminate]|discriminate]. Qed.
Lemma nf_suffix s : forall n, byte_suffix s n <> OutOfFuel.
Proof. induction s as [|c s IH]; intros [|n]; cbn [byte_suffix]; try discriminate. destruct (_ <=? _); [apply IH|discriminate]. Qed.
Ltac nf := repeat first [ discriminate | assumption | apply nf_csub | apply nf_idx | apply nf_insert | apply nf_remove | apply nf_div | apply nf_copy | apply nf_prefix | apply nf_suffix
  | apply nf_bind; [|intros ?] | match goal with
    | IH : forall _, _ |- _ => apply IH
    | |- (match ?x with _ => _ end) <> _ => destruct x
    end ].
Lemma nf_compound t : to_compound t <> OutOfFuel. Proof. unfold to_compound, byte_slice. nf. Qed.
Lemma nf_wrap_tokens u k w ts : forall d, wrap_tokens u k w ts d <> OutOfFuel.
Proof. induction ts as [|t ts IH]; intros d; cbn [wrap_tokens]; [discriminate|]. pose proof nf_compound. nf. Qed.
Lemma nf_wrap u k fc w : hard_wrap_composite u k fc w <> OutOfFuel.
Proof. unfold hard_wrap_composite. pose proof nf_wrap_tokens. destruct (composite_kind_widths _ _). nf. Qed.
Lemma nf_fit t : tf_fit t <> OutOfFuel.
Proof.
  assert (A : forall c, avg_width c <> OutOfFuel) by (intros c; unfold avg_width; nf).
  assert (B : forall l i, make_fits i l <> OutOfFuel) by (induction l as [|c l IH]; intros i; cbn [make_fits]; nf).
  assert (C : forall l, potential_1 l <> OutOfFuel) by (induction l as [|c l IH]; cbn [potential_1]; nf).
  assert (D : forall cut uncut l e, step_1 cut uncut e l <> OutOfFuel) by (induction l as [|c l IH]; intros e; cbn [step_1]; cbv zeta; nf).
  assert (E : forall l, sum_over_3 l <> OutOfFuel) by (induction l as [|c l IH]; cbn [sum_over_3]; nf).
  assert (F : forall a b l e, step_2 a b e l <> OutOfFuel) by (induction l as [|c l IH]; intros e; cbn [step_2]; cbv zeta; nf).
  unfold tf_fit. cbv zeta. nf.
Qed.
Lemma nf_see n ls : forall tf, see_lines n tf ls <> OutOfFuel.
Proof.
  assert (A : forall ics tf cells, see_row tf cells ics <> OutOfFuel) by (induction ics as [|i ics IH]; intros; cbn [see_row]; nf).
  induction ls as [|l ls IH]; intros tf; cbn [see_lines]; nf.
Qed.
Lemma nf_wrap_rows u k ws nb st n : forall ls h, wrap_rows u k ws nb st n ls h <> OutOfFuel.
Proof.
  assert (A : forall ics cells ta, wrap_cells u k ws cells ta ics <> OutOfFuel) by (pose proof nf_wrap; induction ics as [|i ics IH]; intros; cbn [wrap_cells]; cbv zeta; nf).
  assert (B : forall ta i, pick_cells i ta <> OutOfFuel) by (induction ta as [|c ta IH]; intros; cbn [pick_cells]; nf).
  assert (C : forall m ir ta ls h, insert_rows nb ir m ta ls h <> OutOfFuel) by (induction m as [|m IH]; intros; cbn [insert_rows]; nf).
  induction n as [|n IH]; intros; cbn [wrap_rows]; cbv zeta; nf.
Qed.
Lemma nf_align b ws nb st h irs : forall als ls, align_lines b ws nb st h als irs ls <> OutOfFuel.
Proof.
  assert (A : forall als ics cells, space_cells ws als cells ics <> OutOfFuel) by (induction ics as [|i ics IH]; intros; cbn [space_cells]; nf).
  induction irs as [|i irs IH]; intros; cbn [align_lines]; cbv zeta; nf.
Qed.
Lemma nf_tables u k ls w : fix_all_tables u k ls w <> OutOfFuel.
Proof.
  assert (A : forall t l, fix_columns u k t l w <> OutOfFuel).
  { intros t l. unfold fix_columns. cbv zeta. pose proof nf_fit. pose proof nf_see. pose proof nf_wrap_rows. pose proof nf_align. assert (T : forall a b, tf_new a b <> OutOfFuel) by (intros; unfold tf_new; nf). nf. }
  unfold fix_all_tables. generalize (rev (find_tables ls)) as ts. intros ts. assert (G : @Ret (list FmtLine) ls <> OutOfFuel) by discriminate. revert G. generalize (@Ret (list FmtLine) ls) as m.
  induction ts as [|t ts IH]; intros m G; cbn [fold_left]; [exact G|]. apply IH. nf.
Qed.

(** The layout of the tables panics exactly when one of them is stuck *)
Theorem C32_exact : forall u k lines width, Forall (plain_cells k) lines ->
  (all_runs is_table (fun t => ~ stuck_table u k width t) lines -> exists out, fix_all_tables u k lines width = Ret out)
  /\ (~ all_runs is_table (fun t => ~ stuck_table u k width t) lines -> fix_all_tables u k lines width = Panic)
  /\ (fix_all_tables u k lines width = Panic -> ~ all_runs is_table (fun t => ~ stuck_table u k width t) lines).
Proof.
  intros u k lines width Hc.
  assert (A : all_runs is_table (fun t => ~ stuck_table u k width t) lines -> exists out, fix_all_tables u k lines width = Ret out).
  { intros H. destruct (@by_runs_some2 _ is_table _ (plain_cells k) (laid_out u k width) (@laid_exists u k width) lines H Hc) as (out & E). exists out. apply fix_all_iff, E. }
  split; [exact A|]. split.
  - intros N. destruct (fix_all_tables u k lines width) as [out| |] eqn:E; [|reflexivity|destruct (@nf_tables _ _ _ _ E)]. destruct N.
    apply fix_all_iff in E. eapply by_runs_all; [|exact E]. intros t t' H. eapply laid_not_stuck, H.
  - intros E H. destruct (A H). congruence.
Qed.
Print Assumptions C32_exact.
(** In 13 columns, the second row of this table has one cell, 3 columns are kept, and the cell needs 4 lines *)
Example C32_exact_example : let t := map (line_from demo skin_default) [row [1; 1; 1; 1; 1]; row [10]] in
  Forall (plain_cells skin_default) t /\ stuck_table demo skin_default 13 t /\ ~ stuck_table demo skin_default 21 t /\ ~ stuck_table demo skin_default 5 t.
Proof.
  cbv zeta. split; [vm_compute; repeat constructor|]. split; [|split].
  - split; [vm_compute; lia|]. eexists _, _. split; [right; left; reflexivity|]. split; [vm_compute; lia|]. split; [left; reflexivity|]. split; [vm_compute; lia|]. vm_compute. eauto.
  - intros (H & _). vm_compute in H. lia.
  - intros (_ & cells & c & I & L & Ic & _). vm_compute in L. destruct cells; [destruct Ic|cbn in L; lia].
Qed.

(** ** The whole text *)

Lemma by_runs_back {A} (p : A -> bool) (R : list A -> list A -> Prop) (P : A -> Prop) : (forall t t', Forall (fun l => p l = true) t -> R t t' -> Forall P t' -> Forall P t) ->
  forall a b, by_runs p R a b -> Forall P b -> Forall P a.
Proof.
  intros H1 a b. induction 1 as [|l a b Hl _ IH|t t' a b Hn Ht Ha H _ IH]; intros HP; [constructor|..].
  - inversion HP; subst. constructor; auto.
  - apply Forall_app in HP as [HP1 HP2]. apply Forall_app. split; [eapply H1; eassumption|auto].
Qed.
Lemma Forall_not_Exists {A} (P : A -> Prop) l : Forall (fun x => ~ P x) l <-> ~ Exists P l.
Proof. apply Forall_Exists_neg. Qed.

(** A text is formatted exactly when none of its tables is stuck and, in 3 columns or more, none of its lines is. It panics otherwise *)
Theorem C32_text_exact : forall u k usize_max text width, skin_ok k ->
  let lines := map (line_from u k) text in
  let w := match width with Some w => w | None => usize_max end in
  Forall good_line lines -> Forall (plain_cells k) lines ->
  (from_text u k usize_max text width = Panic \/ exists t, from_text u k usize_max text width = Ret t)
  /\ ((exists t, from_text u k usize_max text width = Ret t) <->
      all_runs is_table (fun t => ~ stuck_table u k w t) lines
      /\ match width with Some w => 3 <= w -> Forall (fun l => ~ stuck_line k w l) lines | None => True end).
Proof.
  intros u k um text width Hk lines w Hg Hc. unfold from_text. fold lines. fold w. destruct (C32_exact u w Hc) as (T1 & T2 & T3).
  destruct (fix_all_tables u k lines w) as [l1| |] eqn:E; [|split; [left; reflexivity|split; [intros (? & ?); discriminate|intros (H & _); destruct (T3 eq_refl H)]]|destruct (@nf_tables _ _ _ _ E)].
  rewrite bind_ret. assert (T : all_runs is_table (fun t => ~ stuck_table u k w t) lines).
  { apply fix_all_iff in E. eapply by_runs_all; [|exact E]. intros t t' H. eapply laid_not_stuck, H. }
  destruct width as [w'|]; [|split; [right; eauto|split; [auto|eauto]]]. cbn in w. subst w.
  destruct (Nat.leb_spec 3 w') as [H3|H3]; [|split; [right; eauto|split; [split; [exact T|lia]|eauto]]].
  apply fix_all_iff in E. pose proof (C34_justified l1) as J.
  assert (G2 : Forall good_line (justify_blocks l1)).
  { eapply by_runs_Forall with (P := good_line); [| |exact J|]; [|auto|].
    - cbv beta. intros t t' _ HP (x & _ & _ & HF). clear - HP HF. induction HF as [|l l' t t' (fc & -> & ->) _ IH]; [constructor|]. inversion HP; subst. constructor; [assumption|auto].
    - eapply by_runs_Forall; [| |exact E|exact Hg]; [|auto]. intros t t' Ht _ H. pose proof (laid_tables Ht H) as X. eapply Forall_impl; [|exact X]. intros []; cbn; tauto || discriminate. }
  assert (S : Forall (fun l => ~ stuck_line k w' l) lines <-> Forall (fun l => ~ stuck_line k w' l) (justify_blocks l1)).
  { split; intros F.
    - eapply by_runs_Forall with (P := fun l => ~ stuck_line k w' l); [| |exact J|]; [|auto|].
      + cbv beta. intros t t' _ HP (x & _ & _ & HF). clear - HP HF. induction HF as [|l l' t t' (fc & -> & ->) _ IH]; [constructor|]. inversion HP; subst. constructor; [assumption|auto].
      + eapply by_runs_Forall; [| |exact E|exact F]; [|auto]. intros t t' Ht _ H. pose proof (laid_tables Ht H) as X. eapply Forall_impl; [|exact X]. intros []; cbn; tauto || discriminate.
    - apply (by_runs_back (P := fun l => ~ stuck_line k w' l)) in E; [exact E| |].
      + intros t t' Ht _ _. eapply Forall_impl; [|exact Ht]. intros []; cbn; tauto || discriminate.
      + apply (by_runs_back (P := fun l => ~ stuck_line k w' l)) in J; [exact J| |exact F].
        cbv beta. intros t t' _ (x & _ & _ & HF) HP. clear - HP HF. induction HF as [|l l' t t' (fc & -> & ->) _ IH]; [constructor|]. inversion HP; subst. constructor; [assumption|auto]. }
  destruct (C26_exact u Hk G2 H3) as (X1 & X2). destruct (hard_wrap_lines u k (justify_blocks l1) w') as [[l3|]| |] eqn:F.
  - rewrite bind_ret. split; [right; eauto|]. split; [|eauto]. intros _. split; [exact T|]. intros _. apply S, Forall_not_Exists. intros X. apply X1 in X. discriminate.
  - exfalso. destruct X2 as (? & ?); [|discriminate]. intros X. apply X1 in X. discriminate.
  - cbn. split; [left; reflexivity|]. split; [intros (? & ?); discriminate|]. intros (_ & N). exfalso. specialize (N H3). apply S, Forall_not_Exists in N. apply N, X1. reflexivity.
  - exfalso. destruct X2 as (? & ?); [|discriminate]. intros X. apply X1 in X. discriminate.
Qed.
Print Assumptions C32_text_exact.
(** The table above after an item: in 13 columns it's stuck, in 2 columns there's no column left and the item isn't wrapped, in 3 columns the item is stuck *)
Example C32_text_exact_example : let text := [MNormal (mkMC (MListItem 2) [mkCompound (letters 9) false false false false]); row [1; 1; 1; 1; 1]; row [10]] in
  map (fun w => match from_text demo skin_default 1000 text (Some w) with Ret t => length (txt_lines t) | _ => 0 end) [2; 3; 4; 5; 8; 9; 13; 21]
  = [3; 0; 12; 14; 8; 0; 0; 6].
Proof. vm_compute. reflexivity. Qed.
