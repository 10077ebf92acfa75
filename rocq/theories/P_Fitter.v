(** * Properties C27 to C29: fitting composites *)
From Verif Require Import Base L_Base Demo M_Style M_Fit S_Fit L_Fit M_Wrap S_Wrap L_Wrap M_Fitter S_Fitter L_Fitter.
Set Implicit Arguments.
Local Ltac Zify.zify_post_hook ::= Z.div_mod_to_equations.

(** ** C27 *)

(** When there's place for an ellipsis after the bullet or the quote mark, the result fits, and its cached length is right *)
Theorem C27_fits_partial : forall u f fc max k fc', additive u -> chw u 8230%N = 1 -> length_ok u k fc ->
  (lead k (fc_kind fc) = 0 \/ lead k (fc_kind fc) + 1 <= max) -> fit u f fc max k = Ret fc' ->
  shown u k fc' <= max /\ length_ok u k fc' /\ fc_kind fc' = fc_kind fc /\ fc_spacing fc' = fc_spacing fc.
Proof.
  intros u f fc max k fc' Hu Hd Hok Hl E. destruct (Nat.leb_spec (visible_length fc) max) as [L|L].
  { unfold fit in E. rewrite (proj2 (Nat.leb_le _ _) L) in E. injection E as <-. rewrite <- Hok. auto. }
  destruct (Nat.leb_spec 2 max) as [H2|H2].
  - apply fit_spec in E; auto. destruct E as (cs & ex & cs' & (_ & S1 & S2 & _ & _) & _ & T & ->).
    split; [|split; [apply vcl_length_ok; [exact Hu|reflexivity]|split; reflexivity]].
    unfold shown. cbn [fc_kind fc_compounds]. unfold length_ok, shown in Hok. destruct (Nat.eqb_spec ex 0) as [->|H0].
    + subst cs'. lia.
    + specialize (S2 ltac:(lia)). apply truncated_wt in T; auto; [|lia]. unfold wt in T. lia.
  - unfold fit in E. rewrite (proj2 (Nat.leb_gt _ _) L) in E. destruct (Nat.eqb_spec max 0) as [->|].
    + injection E as <-. unfold length_ok, shown. cbn. repeat split; lia.
    + destruct (Nat.eqb_spec max 1) as [->|]; [|lia]. injection E as <-. unfold length_ok, shown, sumw. cbn. rewrite Hd. repeat split; lia.
Qed.
Print Assumptions C27_fits_partial.

Lemma no_dots_elided u s d : elided s d -> columns u d = 0 -> chw u 8230%N = 1 -> d = s.
Proof.
  intros H H0 Hd. induction H as [|c s d H IH|gap s d H IH]; [reflexivity| |].
  - change (c :: d) with ([c] ++ d) in H0. rewrite columns_app in H0. f_equal. apply IH. lia.
  - exfalso. unfold columns, sumw in H0. cbn in H0. lia.
Qed.
(** When there's no place for an ellipsis after the bullet or the quote mark, only an ellipsis is kept (nothing for a null width) *)
Theorem C27_no_place : forall u f fc max k fc', additive u -> chw u 8230%N = 1 -> length_ok u k fc ->
  max <= lead k (fc_kind fc) -> max < visible_length fc -> fit u f fc max k = Ret fc' ->
  fc_kind fc' = fc_kind fc /\ fc_spacing fc' = fc_spacing fc
  /\ (if max =? 0 then styled (fc_compounds fc') = [] else styled (fc_compounds fc') = [dots])
  /\ visible_length fc' = if max <=? 1 then max else lead k (fc_kind fc) + 1.
Proof.
  intros u f fc max k fc' Hu Hd Hok Hl L E. destruct (Nat.leb_spec max 1) as [H2|H2].
  { unfold fit in E. rewrite (proj2 (Nat.leb_gt _ _) L) in E. destruct (Nat.eqb_spec max 0) as [->|]; [|assert (max = 1) as -> by lia; cbn in E]; injection E as <-; repeat split. }
  apply fit_spec in E; auto; try lia. destruct E as (cs & ex & cs' & (S0 & S1 & S2 & _ & _) & _ & T & ->). destruct (Nat.eqb_spec max 0); [lia|].
  cbn [fc_kind fc_compounds fc_spacing visible_length]. split; [reflexivity|]. split; [reflexivity|]. unfold length_ok, shown in Hok.
  assert (X : styled cs' = [dots]).
  { destruct (Nat.eqb_spec ex 0) as [->|H0].
    - subst cs'. apply (@no_dots_elided u) in S0; [|rewrite columns_styled; lia|exact Hd]. exfalso. rewrite <- columns_styled, S0, columns_styled in S1. lia.
    - specialize (S2 ltac:(lia)). destruct T as (cs1 & T1 & T2). destruct (excesses (ft_align f) ex) as (l, r) eqn:Ee. cbn [fst snd] in T1, T2.
      apply excesses_cases in Ee; [|lia]. destruct Ee as [(-> & ->)|[(-> & ->)|(H3 & H4 & H5)]].
      + change (0 <? 0) with false in T1. cbn iota in T1. subst cs1. destruct (Nat.ltb_spec 0 (ex + 1)); [|lia]. destruct T2 as (cs2 & q & Q & ->).
        pose proof (right_wt Q) as W. destruct Q as (_ & [Q| ->] & _); [unfold wt in W; lia|reflexivity].
      + change (0 <? 0) with false in T2. cbn iota in T2. subst cs'. destruct (Nat.ltb_spec 0 (ex + 1)); [|lia]. destruct T1 as (cs2 & q & Q & ->).
        pose proof (left_wt Q) as W. destruct Q as (_ & [Q| ->] & _); [unfold wt in W; lia|reflexivity].
      + destruct (Nat.ltb_spec 0 l); [|lia]. destruct (Nat.ltb_spec 0 r); [|lia]. destruct T1 as (cs0 & q & Q & ->). destruct T2 as (cs2 & q2 & Q2 & ->).
        pose proof (left_wt Q) as W. pose proof (right_wt Q2) as W2. rewrite (@wt_ell u cs0 Hd) in W2.
        destruct Q2 as (_ & [Q2| ->] & _); [|reflexivity]. exfalso. destruct Q as (_ & [Q| ->] & _); [unfold wt in *; lia|change (wt u []) with 0 in W2; lia]. }
  split; [exact X|]. rewrite vcl_shown by exact Hu. rewrite <- columns_styled, X. unfold columns, sumw. cbn. rewrite Hd. lia.
Qed.
Print Assumptions C27_no_place.

(** No panic when there's something in the middle of the tokens to cut, and no empty compound *)
Theorem C27_no_panic_partial : forall u f fc max k, additive u -> chw u 8230%N = 1 ->
  (mid_token_ellision f = true -> tokens_ok u (fc_compounds fc)) ->
  ((ft_align f = ALeft \/ ft_align f = Unspecified) \/ Forall (fun c => src c <> []) (fc_compounds fc)) ->
  exists fc', fit u f fc max k = Ret fc'.
Proof. exact fit_ret. Qed.
Print Assumptions C27_no_panic_partial.

(** In particular there's no panic with chars of at most one column and compounds which aren't empty *)
Theorem C27_narrow_no_panic : forall u f fc max k, additive u -> chw u 8230%N = 1 ->
  Forall (fun c => chw u c <= 1) (text_of (fc_compounds fc)) -> Forall (fun c => src c <> []) (fc_compounds fc) ->
  exists fc', fit u f fc max k = Ret fc'.
Proof. intros u f fc max k Hu Hd Hn Hs. apply fit_ret; auto. intros _. apply narrow_tokens; assumption. Qed.
Print Assumptions C27_narrow_no_panic.

(** Whatever the content, there's no panic with a left alignment *)
Theorem C27_left_no_panic : forall u fc max k, additive u -> chw u 8230%N = 1 -> exists fc', fit_width u fc max ALeft k = Ret fc'.
Proof. intros u fc max k Hu Hd. apply fit_ret; auto. cbn. discriminate. Qed.
Print Assumptions C27_left_no_panic.

Definition fit_of (kind : CompositeKind) (cs : list Compound) : FmtComposite :=
  mkFC kind cs (visible_composite_length demo skin_default kind cs) None.
Definition letters (n : nat) : str := map (fun i => (97 + N.of_nat i)%N) (seq 0 n).
(** Two compounds and three tokens *)
Definition sample : FmtComposite := fit_of KParagraph [raw_str (letters 8 ++ [32]%N ++ letters 3); mkCompound (letters 9) true false false false].
Example C27_example : length_ok demo skin_default sample /\ Forall (fun c => chw demo c <= 1) (text_of (fc_compounds sample)) /\ Forall (fun c => src c <> []) (fc_compounds sample)
  /\ shown demo skin_default sample = 21
  /\ exists fc', fit_width demo sample 8 Unspecified skin_default = Ret fc' /\ shown demo skin_default fc' = 8
  /\ map src (fc_compounds fc') = [[97]; ELLIPSIS; [104]; ELLIPSIS; [99]; [97]; ELLIPSIS; [105]]%N.
Proof. split; [reflexivity|]. split; [repeat constructor|]. split; [repeat constructor; discriminate|]. split; [reflexivity|]. eexists. split; [vm_compute; reflexivity|]. split; reflexivity. Qed.

(** A token of two wide chars has nothing to remove: the gain underflows *)
Theorem C27_panic_refuted : exists fc width, length_ok demo skin_default fc /\ Forall (fun c => src c <> []) (fc_compounds fc)
  /\ fit_width demo fc width Unspecified skin_default = Panic.
Proof. exists (fit_of KParagraph [raw_str [27010; 35201]%N]), 3. split; [reflexivity|]. split; [repeat constructor; discriminate|]. vm_compute. reflexivity. Qed.
Print Assumptions C27_panic_refuted.
(** With an alignment which removes chars at the left, an empty compound makes it panic *)
Theorem C27_empty_compound_refuted : exists fc width, length_ok demo skin_default fc /\ tokens_ok demo (fc_compounds fc)
  /\ fit_width demo fc width ARight skin_default = Panic.
Proof.
  exists (fit_of KParagraph [raw_str []; raw_str (letters 6)]), 3. split; [reflexivity|]. split; [|vm_compute; reflexivity].
  apply narrow_tokens; [exact demo_additive|]. repeat constructor.
Qed.
Print Assumptions C27_empty_compound_refuted.
(** The indentation and the bullet of a list item are never removed *)
Theorem C27_fits_refuted : exists fc width fc', length_ok demo skin_default fc /\ fit_width demo fc width ALeft skin_default = Ret fc' /\ width < shown demo skin_default fc'.
Proof. exists (fit_of (KListItem 2) [raw_str (letters 6)]), 4. eexists. split; [reflexivity|]. split; [vm_compute; reflexivity|]. vm_compute. lia. Qed.
Print Assumptions C27_fits_refuted.
(** And they're not counted in the cached length when the width is 0 or 1 *)
Theorem C27_length_refuted : exists fc width fc', length_ok demo skin_default fc /\ fit_width demo fc width ALeft skin_default = Ret fc' /\ ~ length_ok demo skin_default fc'.
Proof. exists (fit_of KQuote [raw_str (letters 6)]), 1. eexists. split; [reflexivity|]. split; [vm_compute; reflexivity|]. vm_compute. discriminate. Qed.
Print Assumptions C27_length_refuted.

(** ** C28 *)

Theorem C28_unchanged : forall u f fc max k, visible_length fc <= max -> fit u f fc max k = Ret fc.
Proof. intros u f fc max k H. unfold fit. rewrite (proj2 (Nat.leb_le _ _) H). reflexivity. Qed.
Print Assumptions C28_unchanged.

(** All what is kept comes from the source, with its style, and there's an ellipsis wherever something was removed *)
Theorem C28_elided : forall u f fc max k fc', additive u -> chw u 8230%N = 1 -> 1 <= max -> fit u f fc max k = Ret fc' ->
  elided (styled (fc_compounds fc)) (styled (fc_compounds fc')).
Proof.
  intros u f fc max k fc' Hu Hd Hm E. destruct (Nat.leb_spec (visible_length fc) max) as [L|L].
  { rewrite C28_unchanged in E by exact L. injection E as <-. apply elided_refl. }
  destruct (Nat.eq_dec max 1) as [->|H1].
  { unfold fit in E. rewrite (proj2 (Nat.leb_gt _ _) L) in E. cbn in E. injection E as <-. apply elided_all. }
  apply fit_spec in E; auto; [|lia]. destruct E as (cs & ex & cs' & (S & _) & _ & T & ->). cbn [fc_compounds]. eapply elided_trans; [exact S|].
  destruct (ex =? 0); [subst; apply elided_refl|]. eapply truncated_elided. exact T.
Qed.
Print Assumptions C28_elided.

(** A null width removes all, a width of one leaves an ellipsis *)
Theorem C28_tiny : forall u f fc k, 
  (0 < visible_length fc -> fit u f fc 0 k = Ret (mkFC (fc_kind fc) [] 0 (fc_spacing fc)))
  /\ (1 < visible_length fc -> exists cs, fit u f fc 1 k = Ret (mkFC (fc_kind fc) cs 1 (fc_spacing fc)) /\ styled cs = [dots]).
Proof.
  intros u f fc k. unfold fit. split; intros H; rewrite (proj2 (Nat.leb_gt _ _) H); [reflexivity|]. eexists. split; reflexivity.
Qed.
Print Assumptions C28_tiny.

(** Aligned on the left: a prefix is kept, followed by an ellipsis, and the next char wouldn't fit *)
Theorem C28_left : forall u f fc max k fc', additive u -> chw u 8230%N = 1 -> length_ok u k fc -> 2 <= max < visible_length fc ->
  f = for_align ALeft \/ f = mkFitter false false Unspecified -> fit u f fc max k = Ret fc' ->
  exists p q, styled (fc_compounds fc) = p ++ q /\ styled (fc_compounds fc') = p ++ [dots]
    /\ (p = [] \/ lead k (fc_kind fc) + columns u p + 1 <= max)
    /\ match q with [] => True | c :: _ => max < lead k (fc_kind fc) + columns u (p ++ [c]) + 1 end.
Proof.
  intros u f fc max k fc' Hu Hd Hok Hm Hf E. apply fit_spec in E; try lia; auto. destruct E as (cs & ex & cs' & _ & Hn & T & ->).
  assert (F : mid_token_ellision f = false /\ mid_compound_ellision f = false /\ forall e, excesses (ft_align f) e = (0, e + 1)) by (destruct Hf as [->| ->]; auto).
  destruct F as (F1 & F2 & F3). destruct (Hn F1 F2) as (-> & ->). rewrite F3 in T. cbn [fst snd fc_compounds] in *.
  destruct (Nat.eqb_spec (visible_length fc - max) 0); [lia|]. destruct T as (cs1 & T1 & T2). cbn in T1. subst cs1.
  destruct (Nat.ltb_spec 0 (visible_length fc - max + 1)); [|lia]. destruct T2 as (cs2 & q & (Q1 & Q2 & Q3 & _) & ->).
  exists (styled cs2), q. split; [exact Q1|]. split; [apply styled_ell_r|]. unfold length_ok, shown in Hok. rewrite <- columns_styled, Q1 in Hok. rewrite columns_app in Hok. split.
  - destruct Q2 as [Q2| ->]; [right; lia|left; reflexivity].
  - destruct Q3 as [->|(q' & c & -> & Hq)]; [exact I|]. rewrite columns_app. change (c :: q') with ([c] ++ q') in Hok. rewrite columns_app in Hok. lia.
Qed.
Print Assumptions C28_left.

(** Aligned on the right: a suffix is kept, after an ellipsis, and the previous char wouldn't fit *)
Theorem C28_right : forall u fc max k fc', additive u -> chw u 8230%N = 1 -> length_ok u k fc -> 2 <= max < visible_length fc ->
  fit_width u fc max ARight k = Ret fc' ->
  exists q p, styled (fc_compounds fc) = q ++ p /\ styled (fc_compounds fc') = dots :: p
    /\ (p = [] \/ lead k (fc_kind fc) + 1 + columns u p <= max)
    /\ (q = [] \/ exists q' c, q = q' ++ [c] /\ max < lead k (fc_kind fc) + 1 + columns u (c :: p)).
Proof.
  intros u fc max k fc' Hu Hd Hok Hm E. apply fit_spec in E; try lia; auto. destruct E as (cs & ex & cs' & _ & Hn & T & ->).
  destruct (Hn eq_refl eq_refl) as (-> & ->). cbn [for_align ft_align excesses fst snd fc_compounds] in *.
  destruct (Nat.eqb_spec (visible_length fc - max) 0); [lia|]. destruct T as (cs1 & T1 & T2). cbn in T2. subst cs'.
  destruct (Nat.ltb_spec 0 (visible_length fc - max + 1)); [|lia]. destruct T1 as (cs2 & q & (Q1 & Q2 & Q3 & _) & ->).
  exists q, (styled cs2). split; [exact Q1|]. split; [reflexivity|]. unfold length_ok, shown in Hok. rewrite <- columns_styled, Q1 in Hok. rewrite columns_app in Hok. split.
  - destruct Q2 as [Q2| ->]; [right; lia|left; reflexivity].
  - destruct Q3 as [->|(q' & c & -> & Hq)]; [left; reflexivity|right]. exists q', c. split; [reflexivity|]. change (c :: styled cs2) with ([c] ++ styled cs2). rewrite columns_app in *.
    destruct Hq as [->|Hq]; [change (columns u []) with 0 in *|]; lia.
Qed.
Print Assumptions C28_right.

(** Centered: when one column is in excess, it's as on the left. If not, a middle part is kept between two ellipses, half of
    the excess (and the place of the ellipsis) being removed at each side, without a char more than needed.
    When there's almost no place, only one ellipsis is kept. *)
Theorem C28_center : forall u fc max k fc', additive u -> chw u 8230%N = 1 -> length_ok u k fc -> 2 <= max -> max + 2 <= visible_length fc ->
  fit_width u fc max Center k = Ret fc' ->
  (exists q1 p q2, styled (fc_compounds fc) = q1 ++ p ++ q2 /\ styled (fc_compounds fc') = dots :: p ++ [dots]
     /\ (exists q c, q1 = q ++ [c] /\ columns u q <= (visible_length fc - max) / 2 < columns u q1)
     /\ (exists q c, q2 = c :: q /\ columns u q <= (visible_length fc - max + 1) / 2 < columns u q2))
  \/ styled (fc_compounds fc') = [dots]
     /\ forall w, Forall (fun c => chw u c <= w) (text_of (fc_compounds fc)) -> max <= lead k (fc_kind fc) + w.
Proof.
  intros u fc max k fc' Hu Hd Hok Hm Hv E. apply fit_spec in E; try lia; auto. destruct E as (cs & ex & cs' & _ & Hn & T & ->).
  destruct (Hn eq_refl eq_refl) as (-> & ->). clear Hn. cbn [for_align ft_align fc_compounds] in *. set (e := visible_length fc - max) in *.
  destruct (Nat.eqb_spec e 0); [lia|]. assert (Ee : excesses Center e = (e / 2 + 1, (e + 1) / 2 + 1)).
  { unfold excesses. destruct (Nat.ltb_spec 0 (e / 2)); [|lia]. f_equal. lia. }
  rewrite Ee in T. clear Ee. cbn [fst snd] in T. assert (He : e / 2 + (e + 1) / 2 = e) by lia. assert (H1 : 1 <= e / 2) by lia.
  remember (e / 2) as l. remember ((e + 1) / 2) as r. destruct T as (cs1 & T1 & T2).
  destruct (Nat.ltb_spec 0 (l + 1)); [|lia]. destruct (Nat.ltb_spec 0 (r + 1)); [|lia].
  destruct T1 as (cs0 & q1 & (A1 & A2 & A3 & _) & ->). destruct T2 as (cs2 & q2 & (B1 & B2 & B3 & _) & ->). rewrite styled_ell in B1.
  unfold length_ok, shown in Hok. rewrite <- columns_styled in Hok.
  assert (A3' : q1 = [] \/ exists q c, q1 = q ++ [c] /\ columns u q <= l).
  { destruct A3 as [->|(q & c & -> & [->|A3])]; [left; reflexivity| |]; right; eexists; eexists; (split; [reflexivity|]); [change (columns u []) with 0|]; lia. }
  destruct (styled cs2) as [|d p] eqn:E2; cbn [app] in B1.
  - right. rewrite styled_ell_r, E2. split; [reflexivity|]. intros w Hw. rewrite <- text_styled in Hw. rewrite A1 in Hok, Hw. rewrite columns_app in Hok.
    subst q2. destruct B3 as [B3|(q & c & B3 & B4)]; [discriminate|]. injection B3 as <- <-.
    assert (C1 : columns u q1 <= l + w \/ cs0 = [] /\ q1 = []).
    { destruct A3' as [->|(q & c & -> & Hq)].
      - change (columns u []) with 0 in *. destruct A2 as [A2|A2]; [lia|right; auto].
      - left. rewrite columns_app. rewrite map_app, Forall_app, map_app, Forall_app in Hw. destruct Hw as ((_ & Hw) & _). assert (Hc : columns u [c] <= w) by (inversion Hw; unfold columns; cbn; lia). lia. }
    destruct C1 as [C1|(-> & ->)]; [lia|]. change (columns u []) with 0 in *. change (columns u (styled [])) with 0 in *. lia.
  - left. injection B1 as <- B1. exists q1, p, q2. split; [rewrite A1, B1; reflexivity|]. split; [rewrite styled_ell_r, E2; reflexivity|].
    destruct B2 as [B2| ->]; [|discriminate]. assert (Hq2 : q2 <> []). { intros ->. change (columns u []) with 0 in B2. lia. }
    destruct A2 as [A2|A2]; [|subst cs0; symmetry in B1; apply app_eq_nil in B1 as (_ & B1); congruence].
    split.
    + destruct A3' as [->|(q & c & -> & Hq)]; [change (columns u []) with 0 in A2; lia|]. exists q, c. split; [reflexivity|]. lia.
    + destruct B3 as [B3|(q & c & -> & Hq)]; [congruence|]. exists q, c. split; [reflexivity|]. lia.
Qed.
Print Assumptions C28_center.
Theorem C28_center_one : forall u fc max k fc', additive u -> chw u 8230%N = 1 -> length_ok u k fc -> 2 <= max -> visible_length fc = max + 1 ->
  fit_width u fc max Center k = Ret fc' -> exists fcl, fit_width u fc max ALeft k = Ret fcl /\ fc' = fcl.
Proof.
  intros u fc max k fc' Hu Hd Hok Hm Hv E. exists fc'. split; [|reflexivity]. rewrite <- E. unfold fit_width, fit. rewrite Hv.
  replace (max + 1 - max) with 1 by lia. reflexivity.
Qed.
Print Assumptions C28_center_one.

Example C28_example : length_ok demo skin_default sample
  /\ (exists fc', fit_width demo sample 8 ALeft skin_default = Ret fc' /\ text_of (fc_compounds fc') = letters 7 ++ ELLIPSIS)
  /\ (exists fc', fit_width demo sample 8 ARight skin_default = Ret fc' /\ text_of (fc_compounds fc') = ELLIPSIS ++ skipn 2 (letters 9))
  /\ (exists fc', fit_width demo sample 8 Center skin_default = Ret fc' /\ text_of (fc_compounds fc') = ELLIPSIS ++ [104; 32; 97; 98; 99; 97]%N ++ ELLIPSIS).
Proof. split; [reflexivity|]. repeat split; eexists; split; vm_compute; reflexivity. Qed.

(** *** Internal ellision *)

(** The token which is cut is the widest one (the last one of them), and it's cut in its middle, until enough is removed *)
Theorem C28_token_cut : forall u cs z tr, additive u -> 1 <= tr -> biggest_token u cs 3 = Ret (Some z) ->
  exists cs1 c cs2 a r b h m t, cs = cs1 ++ c :: cs2 /\ is_token u (src c) a r b /\ big_token u r /\ r = h ++ m ++ t /\ h <> [] /\ t <> []
  /\ (forall cs1' c' cs2' a' r' b', cs = cs1' ++ c' :: cs2' -> is_token u (src c') a' r' b' -> big_token u r' ->
        strw u r' < strw u r \/ strw u r' = strw u r /\ (length cs1' < length cs1 \/ length cs1' = length cs1 /\ blen a' <= blen a))
  /\ (length m mod 2 = 0 -> length t = length h \/ length t = S (length h))
  /\ (length m mod 2 = 1 -> length h = length t \/ length h = S (length t))
  /\ (tr <= strw u m /\ (exists x m0, (m = x :: m0 \/ m = m0 ++ [x]) /\ strw u m0 < tr) \/ strw u m < tr /\ length h = 1 /\ length t = 1)
  /\ cut u z cs tr = if strw u m =? 0 then Panic else Ret (cs1 ++ [set_str c (a ++ h); raw_str [8230%N]; set_str c (t ++ b)] ++ cs2, strw u m - 1).
Proof.
  intros u cs z tr Hu Htr E. destruct (biggest_token_spec u cs 3) as (o & E' & H). rewrite E in E'. injection E' as <-. destruct H as (Hz & Hw).
  pose proof Hz as (cs1 & c & cs2 & Ecs & a & r & b & Ht & _ & H1 & H2 & Ez).
  assert (Hza : zone_at u cs1 c a r b z). { subst z. repeat split. exact (proj1 Ht). }
  assert (L2 : 2 <= length r). { destruct (@token_zone_of u cs z Hu Hz) as (? & ? & ? & ? & ? & ? & _ & (_ & _ & _ & Ei) & L & _). subst z. cbn [z_infos] in Ei. apply (f_equal (@length _)) in Ei. rewrite !sinfos_length in Ei. lia. }
  destruct (@cut_spec u cs1 c cs2 a r b z tr Hu Hza L2) as (h & m & t & Er & Hh & Htl & B1 & B2 & Hc & Ec); [subst z; cbn [removable_width]; lia|exact Htr|].
  exists cs1, c, cs2, a, r, b, h, m, t. split; [exact Ecs|]. split; [exact Ht|]. split; [split; lia|]. split; [exact Er|]. split; [exact Hh|]. split; [exact Htl|]. split.
  - intros cs1' c' cs2' a' r' b' Ecs' Ht' (Hb' & Hw'). specialize (Hw (mkZone (0 + length cs1') (blen a') (str_char_infos u r') (strw u r'))).
    destruct Hw as [Hw|(Hw & [Hw2|Hw2])].
    + exists cs1', c', cs2'. split; [exact Ecs'|]. exists a', r', b'. repeat split; try apply Ht'; lia.
    + left. subst z. exact Hw.
    + right. subst z. split; [exact Hw|]. injection Hw2 as X1 X2 X3 X4. right. lia.
    + right. subst z. split; [exact Hw|]. destruct Hw2 as [Hw2|(Hw2 & Hw3)]; cbn [compound_idx byte_start_idx] in *; lia.
  - split; [exact B1|]. split; [exact B2|]. rewrite (Hu m). split.
    + destruct Hc as [(Hc & x & m0 & Hm0 & Hlt)|Hc]; [left|right; exact Hc]. split; [exact Hc|]. exists x, m0. rewrite (Hu m0). auto.
    + rewrite Ecs. exact Ec.
Qed.
Print Assumptions C28_token_cut.

(** The same for whole compounds, of at least 4 chars and whose interior is at least 2 columns wide *)
Definition big_compound (u : unicode) (c : Compound) : Prop := 4 <= length (src c) /\ 2 <= strw u (interior (src c)).
Theorem C28_compound_cut : forall u cs z tr, additive u -> 2 <= tr -> biggest_compound u cs 2 = Ret (Some z) ->
  exists cs1 c cs2 h m t, cs = cs1 ++ c :: cs2 /\ big_compound u c /\ src c = h ++ m ++ t /\ h <> [] /\ t <> []
  /\ (forall cs1' c' cs2', cs = cs1' ++ c' :: cs2' -> big_compound u c' ->
        strw u (interior (src c')) < strw u (interior (src c)) \/ strw u (interior (src c')) = strw u (interior (src c)) /\ length cs1' <= length cs1)
  /\ (length m mod 2 = 0 -> length t = length h \/ length t = S (length h))
  /\ (length m mod 2 = 1 -> length h = length t \/ length h = S (length t))
  /\ (tr <= strw u m /\ (exists x m0, (m = x :: m0 \/ m = m0 ++ [x]) /\ strw u m0 < tr) \/ strw u m < tr /\ length h = 1 /\ length t = 1)
  /\ 2 <= strw u m
  /\ cut u z cs tr = Ret (cs1 ++ [set_str c h; raw_str [8230%N]; set_str c t] ++ cs2, strw u m - 1).
Proof.
  intros u cs z tr Hu Htr E. destruct (biggest_compound_spec u cs 2) as (o & E' & H). rewrite E in E'. injection E' as <-. destruct H as (Hz & Hw).
  pose proof Hz as (cs1 & c & cs2 & Ecs & H1 & H2 & Ez).
  assert (Hza : zone_at u cs1 c [] (src c) [] z). { subst z. repeat split. cbn. rewrite app_nil_r. reflexivity. }
  destruct (@cut_spec u cs1 c cs2 [] (src c) [] z tr Hu Hza) as (h & m & t & Er & Hh & Htl & B1 & B2 & Hc & Ec); [lia|subst z; cbn [removable_width]; lia|lia|].
  exists cs1, c, cs2, h, m, t. split; [exact Ecs|]. split; [split; lia|]. split; [exact Er|]. split; [exact Hh|]. split; [exact Htl|]. split.
  - intros cs1' c' cs2' Ecs' (Hb' & Hw'). specialize (Hw (mkZone (0 + length cs1') 0 (str_char_infos u (src c')) (strw u (interior (src c'))))).
    destruct Hw as [Hw|(Hw & [Hw2|Hw2])].
    + exists cs1', c', cs2'. repeat split; assumption.
    + left. subst z. exact Hw.
    + right. subst z. split; [exact Hw|]. injection Hw2 as X1 X2 X3. lia.
    + right. subst z. split; [exact Hw|]. destruct Hw2 as [Hw2|(Hw2 & Hw3)]; cbn [compound_idx byte_start_idx] in *; lia.
  - split; [exact B1|]. split; [exact B2|]. rewrite (Hu m). split; [|split].
    + destruct Hc as [(Hc & x & m0 & Hm0 & Hlt)|Hc]; [left|right; exact Hc]. split; [exact Hc|]. exists x, m0. rewrite (Hu m0). auto.
    + destruct Hc as [(Hc & _)|(_ & Lh & Lt)]; [lia|]. destruct h as [|x [|? ?]]; try discriminate. destruct t as [|y [|? ?]]; try discriminate.
      cbn [app] in Er. rewrite Er, interior_mid, Hu in H2. exact H2.
    + rewrite Ecs, Ec. destruct (Nat.eqb_spec (sumw (chw u) m) 0) as [E0|E0]; [|cbn [app]; rewrite app_nil_r; reflexivity].
      exfalso. destruct Hc as [(Hc & _)|(_ & Lh & Lt)]; [lia|]. destruct h as [|x [|? ?]]; try discriminate. destruct t as [|y [|? ?]]; try discriminate.
      cbn [app] in Er. rewrite Er, interior_mid, Hu in H2. lia.
Qed.
Print Assumptions C28_compound_cut.

(** Ellisions go on until it fits, or there's no token (no compound) to cut anymore, or nothing to gain with the widest one *)
Inductive cuts (u : unicode) (pick : list Compound -> outcome (option Zone)) : list Compound -> nat -> list Compound -> nat -> Prop :=
| cuts_fit cs : cuts u pick cs 0 cs 0
| cuts_none cs e : 1 <= e -> pick cs = Ret None -> cuts u pick cs e cs e
| cuts_no_gain cs e z cs' : 1 <= e -> pick cs = Ret (Some z) -> cut u z cs (e + 1) = Ret (cs', 0) -> cuts u pick cs e cs' e
| cuts_gain cs e z cs1 g cs' e' : 1 <= e -> pick cs = Ret (Some z) -> cut u z cs (e + 1) = Ret (cs1, g) -> 1 <= g ->
    cuts u pick cs1 (e - g) cs' e' -> cuts u pick cs e cs' e'.
Theorem C28_cuts : forall u pick fuel cs e cs' e', ellision_loop u pick fuel cs e = Ret (cs', e') -> cuts u pick cs e cs' e'.
Proof.
  intros u pick. induction fuel as [|fuel IH]; intros cs e cs' e' E; cbn [ellision_loop] in E; destruct (Nat.eqb_spec e 0) as [->|H0]; try discriminate; try (injection E as <- <-; constructor).
  apply bind_Ret_inv in E as (o & Eo & E). apply bind_Ret_inv in E as ((cs1 & g) & Ec & E). destruct o as [z|].
  - destruct (Nat.eqb_spec g 0) as [->|G].
    + injection E as <- <-. eapply cuts_no_gain; eauto. lia.
    + apply IH in E. replace (e - Nat.min g e) with (e - g) in E by lia. eapply cuts_gain; eauto; lia.
  - injection Ec as <- <-. cbn in E. injection E as <- <-. apply cuts_none; [lia|exact Eo].
Qed.
Print Assumptions C28_cuts.
(** First the tokens, then the compounds, then the truncation at the right *)
Theorem C28_default : forall u fc max k fc', additive u -> chw u 8230%N = 1 -> length_ok u k fc -> 2 <= max < visible_length fc ->
  fit_width u fc max Unspecified k = Ret fc' ->
  exists cs1 e1 cs2 e2, cuts u (fun cs => biggest_token u cs 3) (fc_compounds fc) (visible_length fc - max) cs1 e1
    /\ cuts u (fun cs => biggest_compound u cs 2) cs1 e1 cs2 e2
    /\ if e2 =? 0 then fc_compounds fc' = cs2
       else exists p q, styled cs2 = p ++ q /\ styled (fc_compounds fc') = p ++ [dots]
            /\ (p = [] \/ e2 + 1 <= columns u q) /\ match q with [] => True | _ :: q' => columns u q' < e2 + 1 end.
Proof.
  intros u fc max k fc' Hu Hd Hok Hm E. unfold fit_width, fit in E. rewrite (proj2 (Nat.leb_gt _ _)) in E by lia. destruct (Nat.eqb_spec max 0); [lia|]. destruct (Nat.eqb_spec max 1); [lia|].
  cbn [for_align mid_token_ellision mid_compound_ellision ft_align] in E.
  apply bind_Ret_inv in E as ((cs1 & e1) & E1 & E). apply bind_Ret_inv in E as ((cs2 & e2) & E2 & E). exists cs1, e1, cs2, e2.
  split; [eapply C28_cuts; exact E1|]. split; [eapply C28_cuts; exact E2|]. destruct (Nat.eqb_spec e2 0) as [->|H0]; [injection E as <-; reflexivity|].
  cbn [excesses] in E. change (0 <? 0) with false in E. cbn iota in E. rewrite bind_ret in E. destruct (Nat.ltb_spec 0 (e2 + 1)); [|lia].
  apply bind_Ret_inv in E as (cs3 & E3 & E). apply bind_Ret_inv in E3 as (cs4 & E4 & E3). injection E3 as <-. injection E as <-.
  destruct (truncate_right_spec u cs2 (e2 + 1)) as (cs5 & q & E5 & (Q1 & Q2 & Q3 & _)). rewrite E4 in E5. injection E5 as <-. exists (styled cs4), q.
  split; [exact Q1|]. split; [apply styled_ell_r|]. split; [destruct Q2 as [Q2| ->]; [right; exact Q2|left; reflexivity]|].
  destruct Q3 as [->|(q' & c & -> & Hq)]; [exact I|exact Hq].
Qed.
Print Assumptions C28_default.
Theorem C28_default_fitter : fitter_default = for_align Unspecified.
Proof. reflexivity. Qed.
Print Assumptions C28_default_fitter.

(** ** C29 *)

(** Without a previous spacing, the composite is either exactly as wide as wanted, or it's completed with spaces *)
Theorem C29_filled_partial : forall u fc width a k fc', additive u -> chw u 8230%N = 1 -> length_ok u k fc ->
  (lead k (fc_kind fc) = 0 \/ lead k (fc_kind fc) + 1 <= width) -> fc_spacing fc = None -> fill_width u fc width a k = Ret fc' ->
  length_ok u k fc' /\ fc_kind fc' = fc_kind fc
  /\ (shown u k fc' = width /\ fc_spacing fc' = None \/ shown u k fc' < width /\ fc_spacing fc' = Some (mkSpacing width a)).
Proof.
  intros u fc width a k fc' Hu Hd Hok Hl Hs E. unfold fill_width in E. apply bind_Ret_inv in E as (fc1 & E1 & E). injection E as <-.
  destruct (C27_fits_partial _ Hu Hd Hok Hl E1) as (H1 & H2 & H3 & H4). unfold extend_width. rewrite H4, Hs.
  destruct (Nat.ltb_spec (visible_length fc1) width) as [L|L].
  - split; [exact H2|]. split; [exact H3|]. right. split; [rewrite H2 in L; exact L|reflexivity].
  - split; [exact H2|]. split; [exact H3|]. left. split; [rewrite H2 in L; unfold shown in *; lia|congruence].
Qed.
Print Assumptions C29_filled_partial.
(** The text is the one given by the fitting; a previous spacing is enlarged if needed but never reduced *)
Theorem C29_extend : forall u fc width a k, match fit_width u fc width a k with
  | Ret fc1 => exists sp, fill_width u fc width a k = Ret (mkFC (fc_kind fc1) (fc_compounds fc1) (visible_length fc1) sp)
      /\ match fc_spacing fc1 with
         | Some s => sp = Some (mkSpacing (Nat.max (sp_width s) width) a)
         | None => sp = if visible_length fc1 <? width then Some (mkSpacing width a) else None
         end
  | Panic => fill_width u fc width a k = Panic
  | OutOfFuel => fill_width u fc width a k = OutOfFuel
  end.
Proof.
  intros u fc width a k. unfold fill_width. destruct (fit_width u fc width a k) as [fc1| |]; try reflexivity. rewrite bind_ret. unfold extend_width.
  destruct fc1 as [kind cs vl sp]. cbn [fc_kind fc_compounds visible_length fc_spacing]. destruct sp as [s|].
  - eexists. split; [reflexivity|]. destruct (Nat.ltb_spec (sp_width s) width); do 2 f_equal; lia.
  - eexists. split; [|reflexivity]. destruct (vl <? width); reflexivity.
Qed.
Print Assumptions C29_extend.
Example C29_example : length_ok demo skin_default sample /\ fc_spacing sample = None
  /\ (exists fc', fill_width demo sample 8 Center skin_default = Ret fc' /\ shown demo skin_default fc' = 8 /\ fc_spacing fc' = None)
  /\ (exists fc', fill_width demo sample 30 Center skin_default = Ret fc' /\ shown demo skin_default fc' = 21 /\ fc_spacing fc' = Some (mkSpacing 30 Center)).
Proof. split; [reflexivity|]. split; [reflexivity|]. split; eexists; (split; [vm_compute; reflexivity|]); split; reflexivity. Qed.
