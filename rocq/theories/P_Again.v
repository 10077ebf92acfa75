(** * C91: wrapping again changes nothing *)
From Verif Require Import Base L_Base Demo M_Style M_Fit M_Wrap M_TblFit M_Text S_Wrap S_Text S_Again L_Wrap P_Wrap P_Wide.
Set Implicit Arguments.

Lemma first_fits u k width : additive u -> forall tokens cs dst lines, Forall2 (tok_basic u) tokens cs -> visible_length dst <= width ->
  wrap_tokens u k width tokens dst = Ret lines -> exists first others, lines = first :: others /\ visible_length first <= width.
Proof.
  intros Hu. induction tokens as [|t r IH]; intros cs dst lines F H E; cbn [wrap_tokens] in E; [injection E as <-; eauto|].
  inversion F as [|? c0 ? cs' (T1 & T2 & T3 & _) F']; subst. rewrite T1, bind_ret in E.
  destruct (Nat.ltb_spec width (visible_length dst + t_width t)) as [L|L].
  - destruct (negb (blank t)); [|eapply IH; eassumption]. apply bind_Ret_inv in E as (rest & Er & E). injection E as <-. eauto.
  - eapply IH; [exact F'| |exact E]. cbn [add_compound visible_length]. rewrite (Hu (src c0)). lia.
Qed.
Lemma wrapped_first u k fc width lines : additive u -> hard_wrap_composite u k fc width = Ret (Some lines) ->
  exists first others, lines = first :: others /\ visible_length first <= width < visible_length fc.
Proof.
  intros Hu E. apply wrap_inv in E as (H3 & Hv & [(a & b & E & ->)|(E & Hl & Ew)]).
  - apply clean_cut_inv in E as (H1 & _ & _). eexists _, _. split; [reflexivity|]. cbn [visible_length]. lia.
  - destruct (tokens_basic u (width - lead k (fc_kind fc)) (fc_compounds fc)) as (cs & HF & _ & _).
    destruct (@first_fits u k width Hu _ _ (mkFC (fc_kind fc) [] (lead k (fc_kind fc)) (fc_spacing fc)) _ HF Hl Ew) as (f & o & -> & L). exists f, o. auto.
Qed.

(** Lines are left as they are exactly when they all are in place *)
Theorem C91_fixed : forall u k lines width, additive u -> Forall (measured u k) lines ->
  (hard_wrap_lines u k lines width = Ret (Some lines) <-> Forall (in_place u k width) lines).
Proof.
  intros u k lines width Hu. induction lines as [|l r IH]; intros M; [split; auto|]. inversion M as [|? ? M1 M2]; subst. specialize (IH M2).
  assert (K : forall l', (o <- hard_wrap_lines u k r width ;; Ret (option_map (fun r' => l' :: r') o)) = Ret (Some (l' :: r)) <-> Forall (in_place u k width) r).
  { intros l'. rewrite <- IH. destruct (hard_wrap_lines u k r width) as [[o|]| |]; cbn; split; intros E; try discriminate E; injection E as ->; reflexivity. }
  destruct l as [fc|cells|rule|]; cbn [hard_wrap_lines].
  2,3,4: rewrite K; split; [intros H; constructor; [exact I|exact H]|intros H; inversion H; assumption].
  cbn [measured] in M1. split.
  - intros E. apply bind_Ret_inv in E as (ls & Els & E). destruct (margins_in ls (Some width)) as (lm, rm) eqn:Em.
    destruct (Nat.leb_spec (visible_length fc + lm + rm) width) as [L|L].
    + apply K in E. constructor; [|exact E]. exists lm, rm. split; [exists ls; auto|]. rewrite <- M1. exact L.
    + exfalso. apply bind_Ret_inv in E as (w1 & Ew1 & E). apply bind_Ret_inv in E as (w2 & Ew2 & E). apply bind_Ret_inv in E as ([fcs|] & Ec & E); [|discriminate E].
      destruct (@wrapped_first u k fc w2 fcs Hu Ec) as (first & others & -> & Lf). apply bind_Ret_inv in E as ([r'|] & Er & E); [|discriminate E].
      cbn [map app option_map] in E. injection E as Q _. subst first. lia.
  - intros F. inversion F as [|? ? F1 F2]; subst. destruct F1 as (lm & rm & (ls & Els & Em) & L). rewrite Els, bind_ret, Em. rewrite <- M1 in L.
    rewrite (proj2 (Nat.leb_le _ _) L). apply K; assumption.
Qed.

Lemma margins_next k kind width lm rm : margins_of k (next_kind kind) width lm rm <-> margins_of k kind width lm rm.
Proof. destruct kind; reflexivity. Qed.
Lemma wrapped_in_place u k width : additive u -> forall lines lines', Forall (measured u k) lines -> Forall (has_room u k width) lines ->
  hard_wrap_lines u k lines width = Ret (Some lines') -> Forall (measured u k) lines' /\ Forall (in_place u k width) lines'.
Proof.
  intros Hu. induction lines as [|l r IH]; intros lines' M R E; [injection E as <-; auto|]. inversion M as [|? ? M1 M2]; inversion R as [|? ? R1 R2]; subst.
  assert (K : measured u k l -> in_place u k width l -> (o <- hard_wrap_lines u k r width ;; Ret (option_map (fun r' => l :: r') o)) = Ret (Some lines')
     -> Forall (measured u k) lines' /\ Forall (in_place u k width) lines').
  { intros A B X. apply bind_Ret_inv in X as ([r'|] & Er & X); [|discriminate X]. injection X as <-. destruct (IH r' M2 R2 Er). auto. }
  destruct l as [fc|cells|rule|]; cbn [hard_wrap_lines] in E; try (apply K; [exact I..|exact E]).
  apply bind_Ret_inv in E as (ls & Els & E). destruct (margins_in ls (Some width)) as (lm, rm) eqn:Em. cbn [measured has_room] in M1, R1.
  assert (MO : margins_of k (fc_kind fc) width lm rm) by (exists ls; auto). specialize (R1 lm rm MO).
  destruct (Nat.leb_spec (visible_length fc + lm + rm) width) as [L|L].
  - apply K; [exact M1| |exact E]. exists lm, rm. split; [exact MO|]. rewrite <- M1. exact L.
  - apply bind_Ret_inv in E as (w1 & Ew1 & E). apply bind_Ret_inv in E as (w2 & Ew2 & E). apply csub_inv in Ew1 as (Q1 & ->). apply csub_inv in Ew2 as (Q2 & ->).
    apply bind_Ret_inv in E as ([fcs|] & Ec & E); [|discriminate E]. apply bind_Ret_inv in E as ([r'|] & Er & E); [|discriminate E]. injection E as <-.
    destruct (IH r' M2 R2 Er) as (A & B). rewrite Forall_forall in R1.
    assert (S1 : Forall (fun l => shown u k l <= width - lm - rm) fcs).
    { eapply C23_lines_fit_partial; [exact Hu|exact Ec|]. intros c Hc. specialize (R1 c Hc). cbv beta in R1. lia. }
    pose proof (@C25_cached_length u k fc _ _ Hu Ec) as S2. destruct (@C25_kinds u k fc _ _ Ec) as (first & others & -> & K1 & K2 & _).
    assert (S3 : Forall (fun l => margins_of k (fc_kind l) width lm rm) (first :: others)).
    { constructor; [rewrite K1; exact MO|]. eapply Forall_impl; [|exact K2]. cbv beta. intros x ->. apply margins_next. exact MO. }
    clear K1 K2 Ec. set (fcs := first :: others) in *. clearbody fcs. split; apply Forall_app; (split; [|assumption]); apply Forall_map.
    + eapply Forall_impl; [|exact S2]. intros x Hx. exact Hx.
    + rewrite Forall_forall in S1, S3. apply Forall_forall. intros x Hx. exists lm, rm. split; [exact (S3 x Hx)|]. specialize (S1 x Hx). cbv beta in S1. lia.
Qed.

(** Wrapping the wrapped lines again, for the same width, gives them back *)
Theorem C91_again_partial : forall u k lines width lines', additive u -> Forall (measured u k) lines -> Forall (has_room u k width) lines ->
  hard_wrap_lines u k lines width = Ret (Some lines') -> hard_wrap_lines u k lines' width = Ret (Some lines').
Proof. intros u k lines width lines' Hu M R E. destruct (@wrapped_in_place u k width Hu lines lines' M R E) as (A & B). apply C91_fixed; assumption. Qed.

(** and so does a wider width, when the margins don't depend on the width *)
Theorem C91_wider_partial : forall u k lines width lines' width', additive u -> Forall (measured u k) lines -> Forall (has_room u k width) lines ->
  hard_wrap_lines u k lines width = Ret (Some lines') -> width <= width' ->
  (forall kind ls, line_style k kind = Ret ls -> left_margin ls + right_margin ls = 0 \/ left_margin ls + right_margin ls + 3 <= width) ->
  hard_wrap_lines u k lines' width' = Ret (Some lines').
Proof.
  intros u k lines width lines' width' Hu M R E L MG. destruct (@wrapped_in_place u k width Hu lines lines' M R E) as (A & B). apply C91_fixed; try assumption.
  eapply Forall_impl; [|exact B]. intros [fc| | |]; cbn [in_place]; auto. intros (lm & rm & (ls & Els & Em) & H). exists lm, rm. split; [|lia]. exists ls. split; [exact Els|].
  rewrite <- Em. unfold margins_in. destruct (MG _ _ Els) as [Z|Z].
  - destruct (width <? _), (width' <? _); try reflexivity; f_equal; lia.
  - rewrite (proj2 (Nat.ltb_ge width _)), (proj2 (Nat.ltb_ge width' _)) by lia. reflexivity.
Qed.

(** A quote, wrapped at 6 columns *)
Definition quote : FmtLine := Normal (fc_from demo skin_default (mkMC MQuote [plain [97; 98; 32; 99; 100; 101; 32; 102]%N])).
Example C91_example : Forall (measured demo skin_default) [quote; HorizontalRule] /\ Forall (has_room demo skin_default 6) [quote; HorizontalRule]
  /\ exists lines, hard_wrap_lines demo skin_default [quote; HorizontalRule] 6 = Ret (Some lines) /\ length lines = 4
  /\ hard_wrap_lines demo skin_default lines 6 = Ret (Some lines) /\ hard_wrap_lines demo skin_default lines 40 = Ret (Some lines).
Proof.
  split; [repeat constructor|]. split.
  - constructor; [|repeat constructor]. intros lm rm (ls & E & M). injection E as <-. vm_compute in M. injection M as <- <-. apply Forall_forall. intros c H. cbn in H.
    repeat (destruct H as [<-|H]; [vm_compute; lia|]). destruct H.
  - eexists. split; [vm_compute; reflexivity|]. split; [reflexivity|]. split; vm_compute; reflexivity.
Qed.
(** Without enough room for a char, lines having only the quote mark are added each time *)
Theorem C91_again_refuted : exists lines lines' lines'', Forall (measured demo skin_default) lines
  /\ hard_wrap_lines demo skin_default lines 3 = Ret (Some lines') /\ hard_wrap_lines demo skin_default lines' 3 = Ret (Some lines'')
  /\ length lines' = 3 /\ length lines'' = 5.
Proof.
  exists [Normal (fc_from demo skin_default (mkMC MQuote [plain [20013; 22269]%N]))]. eexists _, _. split; [repeat constructor|].
  split; [vm_compute; reflexivity|]. split; [vm_compute; reflexivity|]. split; reflexivity.
Qed.
(** Margins of 2 and 1 columns are used from a width of 6: a paragraph wrapped at 5 columns, without them, is wrapped again at 6 *)
Theorem C91_wider_refuted : exists k lines lines', Forall (measured demo k) lines /\ Forall (has_room demo k 5) lines
  /\ hard_wrap_lines demo k lines 5 = Ret (Some lines') /\ hard_wrap_lines demo k lines' 6 <> Ret (Some lines').
Proof.
  pose (k := skin_default).
  exists (mkSkin (mkLS (ls_cs (paragraph k)) Unspecified 2 1) (bold k) (italic k) (strikeout k) (inline_code k) (code_block k) (headers k) (scrollbar k)
    (table k) (bullet k) (quote_mark k) (horizontal_rule k) (ellipsis k) (table_border_chars k) (indent_mode k)), [Normal (para [97; 98; 99; 100; 101; 102]%N)].
  eexists. split; [repeat constructor|]. split.
  - constructor; [|constructor]. intros lm rm (ls & E & M). injection E as <-. vm_compute in M. injection M as <- <-. apply Forall_forall. intros c H. cbn in H.
    repeat (destruct H as [<-|H]; [vm_compute; lia|]). destruct H.
  - split; [vm_compute; reflexivity|]. vm_compute. discriminate.
Qed.
Print Assumptions C91_fixed.
Print Assumptions C91_again_partial.
Print Assumptions C91_wider_partial.
Print Assumptions C91_again_refuted.
Print Assumptions C91_wider_refuted.
