(** * What's written for a block of code, wrapped or not (C34) *)
From Verif Require Import Base L_Base M_Style M_Fit S_Fit L_Fit M_Wrap S_Wrap L_Wrap P_Wrap M_TblFit M_Text S_Text L_Text P_Text M_Render S_Render L_Render P_Render S_Local P_Local Demo.
Set Implicit Arguments.
Open Scope nat_scope.

(** The columns of a line of code *)
Definition code_width (u : unicode) (l : MLine) : nat := match l with MNormal c => sumw (chw u) (text_of (mc_compounds c)) | _ => 0 end.

Lemma runs_none A (p : A -> bool) R a b : by_runs p R a b -> Forall (fun l => p l = false) a -> b = a.
Proof.
  induction 1 as [|l a b Hl _ IH|t t' a b Hn Ht Ha _ _ IH]; intros F; [reflexivity|..].
  - inversion F; subst. f_equal. auto.
  - apply Forall_app in F as (F1 & _). destruct t as [|x t]; [congruence|]. inversion Ht; inversion F1; subst. congruence.
Qed.
Lemma runs_whole A (p : A -> bool) (R : list A -> list A -> Prop) a b : by_runs p R a b -> Forall (fun l => p l = true) a -> a <> [] -> R a b.
Proof.
  intros H F N. destruct H as [|l a b Hl _|t t' a b Hn Ht Ha HR H]; [congruence|inversion F; congruence|].
  apply Forall_app in F as (_ & F). destruct a as [|x a]; [|cbn in Ha; inversion F; congruence].
  inversion H; subst; [rewrite !app_nil_r; exact HR|]. destruct t0; [congruence|discriminate].
Qed.
Lemma thinned_sumw u A (s d : list (char * A)) : thinned u s d -> sumw (chw u) (map fst d) <= sumw (chw u) (map fst s).
Proof. induction 1 as [|c s d _ IH|c s d _ _ IH]; unfold sumw in *; cbn [map fold_left fold_right sum] in *; lia. Qed.
Lemma styled_text cs : map fst (S_Wrap.styled cs) = text_of cs.
Proof. induction cs as [|c cs IH]; [reflexivity|]. cbn [S_Wrap.styled flat_map text_of]. rewrite map_app. unfold S_Wrap.styled in IH. rewrite IH. f_equal. rewrite map_map. cbn. apply map_id. Qed.
Lemma wrapped_le u k fc width lines l : hard_wrap_composite u k fc width = Ret (Some lines) -> In l lines ->
  sumw (chw u) (text_of (fc_compounds l)) <= sumw (chw u) (text_of (fc_compounds fc)).
Proof.
  intros E Hl. apply C24_text_kept in E. apply thinned_sumw in E. rewrite styled_text in E. etransitivity; [|exact E]. rewrite <- styled_text.
  clear - Hl. induction lines as [|x lines IH]; [destruct Hl|]. cbn [flat_map]. rewrite map_app, sumw_app. destruct Hl as [->|Hl]; [lia|specialize (IH Hl); lia].
Qed.

(** A line of a block: code, with the width of the block *)
Definition of_block (u : unicode) (k : MadSkin) (w : nat) (l : FmtLine) : Prop :=
  exists fc, l = Normal fc /\ fc_kind fc = KCode /\ fc_spacing fc = Some (mkSpacing w ALeft) /\ length_ok u k fc /\ visible_length fc <= w.
Lemma wrap_block u k w bw : additive u -> forall lines out, Forall (of_block u k bw) lines -> hard_wrap_lines u k lines w = Ret (Some out) -> Forall (of_block u k bw) out.
Proof.
  intros Hu. induction lines as [|l lines IH]; intros out F E; cbn [hard_wrap_lines] in E; [injection E as <-; constructor|].
  inversion F as [|? ? Hl F']; subst. pose proof Hl as (fc & -> & Hk & Hs & Hok & Hv). apply bind_Ret_inv in E as (ls & _ & E). destruct (margins_in ls (Some w)) as (lm, rm).
  destruct (_ <=? _).
  - apply bind_Ret_inv in E as ([r|] & Er & E); cbn in E; [|discriminate]. injection E as <-. constructor; [exact Hl|]. eapply IH; eauto.
  - apply bind_Ret_inv in E as (w1 & _ & E). apply bind_Ret_inv in E as (w2 & _ & E). apply bind_Ret_inv in E as ([fcs|] & Ef & E); [|discriminate].
    apply bind_Ret_inv in E as ([r|] & Er & E); cbn in E; [|discriminate]. injection E as <-. apply Forall_app. split; [|eapply IH; eauto].
    apply Forall_forall. intros x Hx. apply in_map_iff in Hx as (fc' & <- & Hx). exists fc'. split; [reflexivity|].
    destruct (@C25_kinds u k fc w2 fcs Ef) as (first & others & El & K1 & K2 & K3). pose proof (@C25_cached_length u k fc w2 fcs Hu Ef) as K4. rewrite Forall_forall in K2, K3, K4.
    assert (Kk : fc_kind fc' = KCode). { rewrite El in Hx. destruct Hx as [<-|Hx]; [congruence|]. rewrite (K2 _ Hx), Hk. reflexivity. }
    split; [exact Kk|]. split; [rewrite (K3 _ Hx); exact Hs|]. split; [apply K4, Hx|].
    pose proof (K4 _ Hx) as K5. pose proof (@wrapped_le u k fc w2 fcs fc' Ef Hx) as K6. unfold length_ok, shown in K5, Hok. rewrite Kk in K5. rewrite Hk in Hok. cbn [lead] in *. lia.
Qed.

(** All the lines of the block, wrapped or not, take the width of the biggest line of the source, more the margins, or the asked width if it's greater *)
Theorem C34_block : forall u special k usize_max text w t, additive u -> narrow_chars u k -> same_widths u special ->
  text <> [] -> Forall (fun l => of_code l = true) text -> from_text u k usize_max text (Some w) = Ret t ->
  exists bw, (forall l, In l text -> code_width u l <= bw) /\ (exists l, In l text /\ code_width u l = bw)
  /\ forall l out, In l (txt_lines t) -> write_fmt_line special k l (Some w) true = Ret out ->
     exists lm rm, margins_ok (code_block k) true (Some w) lm rm /\ printed u out = Nat.max (bw + lm + rm) w.
Proof.
  intros u special k um text w t Hu Hn Hs Hne F E. unfold from_text in E. set (ls := map (line_from u k) text) in *.
  assert (Fc : Forall (fun l => is_code l = true) ls).
  { unfold ls. apply Forall_map. eapply Forall_impl; [|exact F]. intros [c| | | |]; try discriminate. cbn. destruct (mc_style c); try discriminate. reflexivity. }
  assert (Ft : Forall (fun l => is_table l = false) ls).
  { eapply Forall_impl; [|exact Fc]. intros []; try discriminate. reflexivity. }
  apply bind_Ret_inv in E as (l1 & E1 & E). apply fix_all_iff in E1. apply runs_none in E1; [|exact Ft]. subst l1.
  pose proof (C34_justified ls) as J. apply runs_whole in J; [|exact Fc|unfold ls; destruct text; [congruence|discriminate]].
  destruct J as (bw & J1 & (x & Jx & J2) & J3). exists bw.
  assert (CW : forall l, In l text -> code_length (line_from u k l) = code_width u l).
  { intros l Hl. rewrite Forall_forall in F. specialize (F l Hl). destruct l as [c| | | |]; try discriminate. cbn in F. cbn [line_from code_length code_width]. rewrite (C25_from_length k c Hu).
    unfold shown. cbn [fc_from fc_kind fc_compounds]. destruct (mc_style c); try discriminate. reflexivity. }
  split; [intros l Hl; rewrite <- CW by exact Hl; apply J1; unfold ls; apply in_map, Hl|]. split.
  { unfold ls in Jx. apply in_map_iff in Jx as (l & <- & Hl). exists l. split; [exact Hl|]. rewrite <- CW by exact Hl. exact J2. }
  assert (B : Forall (of_block u k bw) (justify_blocks ls)).
  { apply Forall_forall. intros l' Hl'. destruct (Forall2_r_in J3 _ Hl') as (l & Hl & fc & -> & ->). specialize (J1 _ Hl). cbn [code_length] in J1.
    unfold ls in Hl. apply in_map_iff in Hl as (m & Em & Hm). rewrite Forall_forall in F. specialize (F m Hm). destruct m as [c| | | |]; try discriminate. cbn in Em, F. injection Em as <-.
    eexists. split; [reflexivity|]. cbn [fc_kind fc_spacing visible_length fc_compounds]. cbn [fc_from fc_kind]. destruct (mc_style c) eqn:Ec; try discriminate.
    split; [reflexivity|]. split; [reflexivity|]. split; [|exact J1]. pose proof (C25_from_length k c Hu) as Q. unfold length_ok, shown in *. cbn [fc_from fc_kind fc_compounds visible_length] in *. rewrite Ec in *. exact Q. }
  assert (B' : Forall (of_block u k bw) (txt_lines t)).
  { destruct (3 <=? w); [|injection E as <-; exact B]. apply bind_Ret_inv in E as ([o|] & Eo & E); [|discriminate]. injection E as <-. cbn [txt_lines]. eapply wrap_block; eauto. }
  clear E B. rewrite Forall_forall in B'. intros l out Hl Ew. destruct (B' l Hl) as (fc & -> & Hk & Hsp & Hok & Hv).
  pose proof (margins_spec (code_block k) true (Some w)) as Hm. cbv beta iota in Hm. destruct (margins_in (code_block k) (Some w)) as [lm rm].
  exists lm, rm. split; [exact Hm|].
  assert (Hneed : needs k (Some w) (Normal fc) (bw + lm + rm)).
  { exists (code_block k), lm, rm. rewrite Hk. split; [reflexivity|]. split; [exact Hm|]. unfold room. rewrite Hsp. reflexivity. }
  assert (Hroom : line_in_room u k (Normal fc)).
  { unfold length_ok in Hok. split; [|exact Hok]. unfold room. rewrite Hsp. cbn [sp_width]. lia. }
  destruct (Nat.le_gt_cases (bw + lm + rm) w) as [L|L].
  - rewrite (@C35_exact_partial u special k _ w _ out Hn Hs Hroom I Hneed L Ew). lia.
  - rewrite (@C35_overflow u special k _ w _ out Hn Hs Hroom I Hneed ltac:(lia) Ew). lia.
Qed.
Print Assumptions C34_block.
(** So the lines of the block are of the same length, and are over the width exactly when the biggest line of the source, with the margins, is *)
Theorem C34_block_exact : forall u special k usize_max text w t, additive u -> narrow_chars u k -> same_widths u special ->
  text <> [] -> Forall (fun l => of_code l = true) text -> from_text u k usize_max text (Some w) = Ret t ->
  forall l out, In l (txt_lines t) -> write_fmt_line special k l (Some w) true = Ret out ->
  exists lm rm, margins_ok (code_block k) true (Some w) lm rm
  /\ (printed u out <> w <-> exists x, In x text /\ w < code_width u x + lm + rm).
Proof.
  intros u special k um text w t Hu Hn Hs Hne F E l out Hl Ew. destruct (@C34_block u special k um text w t Hu Hn Hs Hne F E) as (bw & B1 & (x & Hx & B2) & B3).
  destruct (B3 l out Hl Ew) as (lm & rm & Hm & P). exists lm, rm. split; [exact Hm|]. rewrite P. split.
  - intros D. exists x. split; [exact Hx|]. lia.
  - intros (y & Hy & L). specialize (B1 y Hy). lia.
Qed.
Print Assumptions C34_block_exact.
(** A line of 4 columns and one of 9, in 6 columns: the second one is cut in two, and the three lines take 9 columns *)
Example C34_block_example : exists t, from_text demo skin_default 1000 [MNormal (mkMC MCode [plain [97; 98; 99; 100]%N]); MNormal (mkMC MCode [plain [97; 98; 99; 100; 101; 102; 103; 104; 105]%N])] (Some 6) = Ret t
  /\ map (fun l => match write_fmt_line no_special skin_default l (Some 6) true with Ret out => (printed demo out, map fst (drawn out)) | _ => (0, []) end) (txt_lines t)
   = [(9, [97; 98; 99; 100; 32; 32; 32; 32; 32]%N); (9, [97; 98; 99; 100; 101; 102; 32; 32; 32]%N); (9, [103; 104; 105; 32; 32; 32; 32; 32; 32]%N)].
Proof. eexists. split; [vm_compute; reflexivity|vm_compute; reflexivity]. Qed.
