(** * C27 and C28 again: exactly which aligned compositions can't be fitted, and fitting twice *)
From Verif Require Import Base L_Base Demo M_Style M_Fit S_Fit L_Fit M_Wrap S_Wrap L_Wrap M_Fitter S_Fitter L_Fitter P_Fitter.
Set Implicit Arguments.
Local Ltac Zify.zify_post_hook ::= Z.div_mod_to_equations.

(** There's an empty compound before which fewer than [n] columns are seen *)
Definition empty_before (u : unicode) (n : nat) (cs : list Compound) : Prop :=
  exists pre c post, cs = pre ++ c :: post /\ src c = [] /\ columns u (styled pre) < n.
(** The number of columns removed at the left, the place of the ellipsis included *)
Definition left_excess (a : Alignment) (excess : nat) : nat :=
  match a with
  | ARight => excess + 1
  | Center => if 2 <=? excess then excess / 2 + 1 else 0
  | _ => 0
  end.

Lemma truncate_left_exact u cs : forall ex, (truncate_left u cs ex = Panic <-> empty_before u ex cs) /\ truncate_left u cs ex <> OutOfFuel.
Proof.
  induction cs as [|c cs IH]; intros ex; cbn [truncate_left]; destruct (Nat.eqb_spec ex 0) as [->|H0].
  1-3: split; [|discriminate]; split; [discriminate|]; intros (pre & c' & post & E & _ & H); try lia; destruct pre; discriminate.
  destruct (list_eq_dec N.eq_dec (src c) []) as [E0|E0].
  { rewrite E0. cbn [str_char_infos char_infos length remove_left]. split; [|discriminate]. split; [intros _|reflexivity].
    exists [], c, cs. split; [reflexivity|]. split; [exact E0|]. cbn. lia. }
  cbn zeta. rewrite !sinfos_length.
  destruct (@remove_left_spec u (src c) ex (src c) [] (S (length (src c)))) as (x & ch & y & Es & E & Hx & Hy); auto.
  cbn [length] in E. change (sumw (chw u) []) with 0 in E. rewrite E, bind_ret.
  destruct (Nat.eqb_spec (length x + 1) (length (src c))) as [El|El].
  - assert (y = []) as ->. { rewrite Es, app_length in El. cbn in El. destruct y; [reflexivity|cbn in El; lia]. }
    destruct (IH (ex - Nat.min (sumw (chw u) (x ++ [ch])) ex)) as (IH1 & IH2). split; [|exact IH2]. rewrite IH1. clear IH IH1 IH2. rewrite <- Es. split.
    + intros (pre & c' & post & -> & H1 & H2). exists (c :: pre), c', post. split; [reflexivity|]. split; [exact H1|].
      rewrite styled_cons, columns_app, columns_sty. lia.
    + intros (pre & c' & post & E1 & H1 & H2). destruct pre as [|c0 pre]; injection E1 as -> ->; [congruence|].
      exists pre, c', post. split; [reflexivity|]. split; [exact H1|]. rewrite styled_cons, columns_app, columns_sty in H2. lia.
  - destruct y as [|ch' y]. { rewrite Es, app_length in El. cbn in El. lia. }
    assert (En : nth_error (str_char_infos u (src c)) (length x + 1) = Some (blen (x ++ [ch]), chw u ch')).
    { rewrite Es. replace (x ++ ch :: ch' :: y) with ((x ++ [ch]) ++ ch' :: y) by (rewrite <- app_assoc; reflexivity).
      replace (length x + 1) with (length (x ++ [ch])) by (rewrite app_length; reflexivity). apply infos_nth. }
    rewrite (@idx_ret _ _ _ _ En), bind_ret. cbn [fst].
    pose proof (byte_suffix_app (x ++ [ch]) (ch' :: y)) as Bs. replace ((x ++ [ch]) ++ ch' :: y) with (src c) in Bs by (rewrite Es, <- app_assoc; reflexivity).
    rewrite Bs, bind_ret. split; [|discriminate]. split; [discriminate|]. intros (pre & c' & post & E1 & H1 & H2).
    destruct Hy as [Hy|Hy]; [|discriminate]. destruct pre as [|c0 pre]; injection E1 as -> ->; [congruence|].
    rewrite styled_cons, columns_app, columns_sty, Es in H2. replace (x ++ ch :: ch' :: y) with ((x ++ [ch]) ++ ch' :: y) in H2 by (rewrite <- app_assoc; reflexivity).
    rewrite sumw_app in H2. lia.
Qed.
Lemma left_excess_spec a ex : 1 <= ex -> fst (excesses a ex) = left_excess a ex.
Proof. intros H. destruct a; try reflexivity. cbn [excesses left_excess]. destruct (Nat.ltb_spec 0 (ex / 2)); destruct (Nat.leb_spec 2 ex); cbn [fst]; lia. Qed.

(** With an alignment, the composites which can't be fitted are exactly those having an empty compound in what's to be removed at the left.
    Nothing is supposed on the widths of the chars, and the cached length may even be wrong *)
Theorem C27_aligned_exact : forall u fc max a k, a <> Unspecified ->
  (fit_width u fc max a k = Panic <-> 2 <= max < visible_length fc /\ empty_before u (left_excess a (visible_length fc - max)) (fc_compounds fc))
  /\ fit_width u fc max a k <> OutOfFuel.
Proof.
  intros u fc max a k Ha. unfold fit_width, fit. replace (for_align a) with (mkFitter false false a) by (destruct a; try reflexivity; congruence). cbn [mid_token_ellision mid_compound_ellision ft_align].
  destruct (Nat.leb_spec (visible_length fc) max) as [L|L]. { split; [|discriminate]. split; [discriminate|lia]. }
  destruct (Nat.eqb_spec max 0) as [E0|E0]. { split; [|discriminate]. split; [discriminate|lia]. }
  destruct (Nat.eqb_spec max 1) as [E1|E1]. { split; [|discriminate]. split; [discriminate|lia]. }
  cbv zeta. rewrite !bind_ret. destruct (Nat.eqb_spec (visible_length fc - max) 0) as [E2|E2]; [lia|].
  rewrite <- left_excess_spec by lia. destruct (excesses a (visible_length fc - max)) as [l r]. cbn [fst].
  destruct (truncate_left_exact u (fc_compounds fc) l) as (T1 & T2).
  assert (R : forall cs, exists cs', (if 0 <? r then cs <- truncate_right u cs r ;; Ret (cs ++ [raw_str ELLIPSIS]) else Ret cs) = Ret cs').
  { intros cs. destruct (0 <? r); [|eauto]. destruct (truncate_right_ret u cs r) as (cs' & ->). rewrite bind_ret. eauto. }
  destruct (Nat.ltb_spec 0 l) as [Hl|Hl].
  - destruct (truncate_left u (fc_compounds fc) l) as [cs| |].
    + rewrite !bind_ret. destruct (R (raw_str ELLIPSIS :: cs)) as (cs' & ->). rewrite bind_ret. split; [|discriminate]. split; [discriminate|]. intros (_ & H). apply T1 in H. discriminate.
    + cbn [bind]. split; [|discriminate]. split; [intros _|reflexivity]. split; [lia|]. apply T1. reflexivity.
    + congruence.
  - rewrite bind_ret. destruct (R (fc_compounds fc)) as (cs' & ->). rewrite bind_ret. split; [|discriminate]. split; [discriminate|]. intros (_ & (pre & c & post & _ & _ & H)). lia.
Qed.
Print Assumptions C27_aligned_exact.

(** An empty compound at the left, and one which is kept *)
Example C27_aligned_example :
  let fc := fit_of KParagraph [raw_str (letters 2); raw_str []; raw_str (letters 7)] in
  let fc2 := fit_of KParagraph [raw_str (letters 5); raw_str []; raw_str (letters 7)] in
  fit_width demo fc 5 ARight skin_default = Panic /\ left_excess ARight (visible_length fc - 5) = 5
  /\ (exists fc', fit_width demo fc2 10 ARight skin_default = Ret fc') /\ left_excess ARight (visible_length fc2 - 10) = 3.
Proof. cbn zeta. split; [vm_compute; reflexivity|]. split; [vm_compute; reflexivity|]. split; [eexists; vm_compute; reflexivity|vm_compute; reflexivity]. Qed.

(** What was fitted is left unchanged when fitted again, whatever the fitter, to the same width or to a bigger one *)
Theorem C28_again : forall u f g fc max max' k fc', additive u -> chw u 8230%N = 1 -> length_ok u k fc ->
  (lead k (fc_kind fc) = 0 \/ lead k (fc_kind fc) + 1 <= max) -> fit u f fc max k = Ret fc' -> max <= max' -> fit u g fc' max' k = Ret fc'.
Proof.
  intros u f g fc max max' k fc' Hu Hd Hok Hl E Hm. destruct (@C27_fits_partial u f fc max k fc' Hu Hd Hok Hl E) as (H1 & H2 & _).
  apply C28_unchanged. rewrite H2. unfold shown in *. lia.
Qed.
Print Assumptions C28_again.
