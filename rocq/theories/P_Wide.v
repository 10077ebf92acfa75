(** * C23: exactly which wrapped lines are too wide *)
From Verif Require Import Base L_Base Demo M_Style M_Fit M_Wrap S_Wrap L_Wrap M_Text P_Wrap S_Text L_Text P_Text.
Set Implicit Arguments.

(** [ch] is in the text, not as a blank *)
Definition inked (u : unicode) (cs : list Compound) (ch : char) : Prop := exists c, In c cs /\ In ch (src c) /\ is_blank u (c_code c) ch = false.
(** A line made of one char of the text, too wide for the lines after the first one *)
Definition lone (u : unicode) (k : MadSkin) (cs : list Compound) (kind : CompositeKind) (width : nat) (l : FmtComposite) : Prop :=
  fc_kind l = kind /\ exists c ch, fc_compounds l = [c] /\ src c = [ch] /\ inked u cs ch /\ width < lead k kind + chw u ch.

Lemma sumw_one u ch : sumw (chw u) [ch] = chw u ch.
Proof. unfold sumw. cbn. lia. Qed.
Lemma lone_shown u k cs kind width l : lone u k cs kind width l -> width < shown u k l.
Proof. intros (<- & c & ch & E1 & E2 & _ & H). unfold shown. rewrite E1. cbn [text_of flat_map]. rewrite E2. cbn [app]. rewrite sumw_one. exact H. Qed.

Lemma wrap_overflow u k width kind max cs0 : additive u -> lead k kind + max <= width -> next_kind kind = kind ->
  forall tokens cs dst lines, Forall2 (tok_in u max cs0) tokens cs -> vcl_ok u k dst -> next_kind (fc_kind dst) = kind ->
  visible_length dst <= width \/ lone u k cs0 kind width dst ->
  wrap_tokens u k width tokens dst = Ret lines -> Forall (fun l => shown u k l <= width \/ lone u k cs0 kind width l) lines.
Proof.
  intros Hu Hm Hk. induction tokens as [|t tokens IH]; intros cs dst lines HF Hv Hd Hl; inversion HF as [|? c ? cs' Ht HF']; subst; cbn [wrap_tokens].
  - intros E. injection E as <-. constructor; [|constructor]. apply (vcl_length_ok k dst Hu) in Hv. unfold length_ok in Hv. rewrite <- Hv. exact Hl.
  - pose proof (tok_in_basic Ht) as (Hc & Hne & Hw & Hb). destruct (Nat.ltb_spec width (visible_length dst + t_width t)) as [L|L].
    + destruct (blank t) eqn:B; cbn [negb]; [apply IH with (1 := HF'); auto|]. rewrite Hc, bind_ret. intros E. apply bind_Ret_inv in E as (rest & E & E2). injection E2 as <-.
      constructor. { apply (vcl_length_ok k dst Hu) in Hv. unfold length_ok in Hv. rewrite <- Hv. exact Hl. }
      eapply IH; [exact HF'|apply add_vcl, follow_up_vcl| | |exact E].
      * rewrite follow_up_eq. cbn [add_compound fc_kind]. apply next_next.
      * rewrite follow_up_eq. cbn [add_compound visible_length]. rewrite Hu, <- Hw. destruct Ht as (c0 & Hin & _ & _ & (pre & post & Hsrc) & _ & _ & Hbl & [Hx|(ch & Hx)]); [left; lia|].
        destruct (Nat.le_gt_cases (lead k (next_kind (fc_kind dst)) + t_width t) width) as [G|G]; [left; exact G|right].
        split; [reflexivity|]. exists c, ch. split; [reflexivity|]. split; [exact Hx|]. split; [|rewrite Hw, Hx, sumw_one in G; exact G].
        exists c0. split; [exact Hin|]. rewrite Hx in Hsrc, Hbl. split; [rewrite Hsrc; apply in_or_app; right; left; reflexivity|]. inversion Hbl; subst. unfold is_blank. congruence.
    + rewrite Hc, bind_ret. intros E. eapply IH; [exact HF'|apply add_vcl; exact Hv|reflexivity| |exact E]. left. cbn [add_compound visible_length]. rewrite Hu, <- Hw. exact L.
Qed.

(** A wrapped line is too wide only when it's made of one char which can't fit *)
Theorem C23_overflow : forall u k fc width lines, additive u -> hard_wrap_composite u k fc width = Ret (Some lines) ->
  Forall (fun l => shown u k l <= width \/ lone u k (fc_compounds fc) (next_kind (fc_kind fc)) width l) lines.
Proof.
  intros u k fc width lines Hu E. pose proof (lead_next k (fc_kind fc)) as Ln. apply wrap_inv in E as (H3 & Hv & [(a & b & E & ->)|(E & Hl & Ew)]).
  - apply clean_cut_inv in E as (H1 & H2 & _). unfold shown. constructor; [|constructor; [|constructor]]; left; cbn [fc_kind fc_compounds text_of flat_map]; rewrite app_nil_r, <- (Hu (src _)); lia.
  - destruct (tokens_basic u (width - lead k (fc_kind fc)) (fc_compounds fc)) as (cs & _ & _ & HF).
    eapply wrap_overflow; [exact Hu| |apply next_next|exact HF|apply start_vcl|reflexivity| |exact Ew]; [lia|left; exact Hl].
Qed.
Print Assumptions C23_overflow.

(** the chars which can't be put on a line *)
Lemma wrap_too_wide u k width kind : additive u -> forall tokens cs dst lines, Forall2 (tok_basic u) tokens cs -> vcl_ok u k dst -> next_kind (fc_kind dst) = kind ->
  (exists t, In t tokens /\ blank t = false /\ width < lead k kind + t_width t) -> wrap_tokens u k width tokens dst = Ret lines -> exists l, In l lines /\ width < shown u k l.
Proof.
  intros Hu. induction tokens as [|t tokens IH]; intros cs dst lines HF Hv Hd (t0 & Hin & Hb0 & H0); [destruct Hin|]. inversion HF as [|? c ? cs' Ht HF']; subst; cbn [wrap_tokens].
  destruct Ht as (Hc & Hne & Hw & Hb). destruct Hin as [->|Hin].
  - assert (Lv : lead k (next_kind (fc_kind dst)) <= visible_length dst).
    { apply (vcl_length_ok k dst Hu) in Hv. unfold length_ok, shown in Hv. pose proof (lead_next k (fc_kind dst)). lia. }
    rewrite (proj2 (Nat.ltb_lt _ _)) by lia. rewrite Hb0. cbn [negb]. rewrite Hc, bind_ret. intros E. apply bind_Ret_inv in E as (rest & E & E2). injection E2 as <-.
    destruct (@wrap_tokens_spec u k width tokens cs' (add_compound u (follow_up_composite k dst) c) HF') as (first & others & d & E1 & F1 & _ & (csf & F2 & _) & _); [apply add_vcl, follow_up_vcl|].
    rewrite E1 in E. injection E as <-. exists first. split; [right; left; reflexivity|]. unfold shown. rewrite F1, F2, follow_up_eq. cbn [add_compound fc_kind fc_compounds app].
    cbn [text_of flat_map]. rewrite sumw_app, <- Hw. lia.
  - destruct (width <? visible_length dst + t_width t).
    + destruct (blank t); cbn [negb]; [apply IH with (1 := HF'); eauto|]. rewrite Hc, bind_ret. intros E. apply bind_Ret_inv in E as (rest & E & E2). injection E2 as <-.
      destruct (IH cs' (add_compound u (follow_up_composite k dst) c) rest HF') as (l & Hl & Hs); [apply add_vcl, follow_up_vcl|rewrite follow_up_eq; cbn [add_compound fc_kind]; apply next_next| |exact E|].
      * exists t0. auto.
      * exists l. split; [right; exact Hl|exact Hs].
    + rewrite Hc, bind_ret. intros E. eapply IH; [exact HF'|apply add_vcl; exact Hv|reflexivity| |exact E]. exists t0. auto.
Qed.

Lemma tokens_char u max : forall cs c ch, In c cs -> In ch (src c) -> exists t, In t (tokenize u cs max) /\ chw u ch <= t_width t /\ blank t = is_blank u (c_code c) ch.
Proof.
  intros cs c ch Hc Hch. destruct (tokenize_one u c max) as (cs' & HF & E & _). rewrite <- E in Hch. apply in_flat_map in Hch as (c' & Hc' & Hch).
  destruct (Forall2_r_in HF _ Hc') as (t & Ht & T). exists t. destruct T as (_ & _ & _ & _ & W & B & _). split; [|split].
  - unfold tokenize. apply in_flat_map. exists c. auto.
  - rewrite W. apply in_split in Hch as (a & b & ->). rewrite sumw_app, sumw_cons. lia.
  - rewrite Forall_forall in B. symmetry. apply B. exact Hch.
Qed.

(** Exactly when the wrapped lines fit: no char is too wide for the lines after the first one, blanks excepted. Or there's a cut between two compounds
    which both fit, whatever the whitespaces in code between them. *)
Theorem C23_exact : forall u k fc width lines, additive u -> hard_wrap_composite u k fc width = Ret (Some lines) ->
  Forall (fun l => shown u k l <= width) lines
  <-> (forall ch, inked u (fc_compounds fc) ch -> lead k (next_kind (fc_kind fc)) + chw u ch <= width)
      \/ exists a m b, fc_compounds fc = [a; m; b] /\ Forall (fun ch => is_white u ch = true) (src m)
         /\ lead k (fc_kind fc) + sumw (chw u) (src a) <= width /\ lead k (next_kind (fc_kind fc)) + sumw (chw u) (src b) <= width.
Proof.
  intros u k fc width lines Hu E. pose proof (lead_next k (fc_kind fc)) as Ln. pose proof (@C23_overflow u k fc width lines Hu E) as Ho.
  apply wrap_inv in E as (H3 & Hv & [(a & b & E & ->)|(E & Hl & Ew)]).
  - apply clean_cut_inv in E as (H1 & H2 & H). rewrite Hu in H1, H2. split; intros _.
    + destruct H as [Ec|(m & Ec & Hm)]; [left|right; exists a, m, b; repeat split; auto; lia]. intros ch (c & Hc & Hch & _). rewrite Ec in Hc.
      apply in_split in Hch as (x & y & Es). destruct Hc as [<-|[<-|[]]]; rewrite Es, sumw_app, sumw_cons in *; lia.
    + unfold shown. constructor; [|constructor; [|constructor]]; cbn [fc_kind fc_compounds text_of flat_map]; rewrite app_nil_r; lia.
  - destruct (tokens_basic u (width - lead k (fc_kind fc)) (fc_compounds fc)) as (cs & HB & Es & HF). split.
    + intros F. left. intros ch (c & Hc & Hch & Hb). destruct (Nat.le_gt_cases (lead k (next_kind (fc_kind fc)) + chw u ch) width) as [G|G]; [exact G|exfalso].
      destruct (tokens_char u (width - lead k (fc_kind fc)) _ _ _ Hc Hch) as (t & Ht & Wt & Bt).
      destruct (@wrap_too_wide u k width (next_kind (fc_kind fc)) Hu _ _ _ lines HB (start_vcl u k (fc_kind fc) (fc_spacing fc)) eq_refl) as (l & Hin & Hs).
      * exists t. split; [exact Ht|]. split; [congruence|lia].
      * exact Ew.
      * rewrite Forall_forall in F. specialize (F l Hin). cbv beta in F. lia.
    + intros [H|(a & m & b & Ec & Hm & Ha & Hb)].
      * rewrite Forall_forall in Ho |- *. intros l Hin. destruct (Ho l Hin) as [G|G]; [exact G|exfalso].
        destruct G as (_ & c & ch & _ & _ & Hi & G). specialize (H ch Hi). lia.
      * exfalso. unfold clean_cut in E. rewrite Ec in E. rewrite !Hu in E. rewrite !(proj2 (Nat.leb_le _ _)) in E by lia. cbn [andb] in E.
        rewrite (proj2 (forallb_forall _ _)) in E; [discriminate|]. apply Forall_forall. exact Hm.
Qed.
Print Assumptions C23_exact.

(** A quote with a wide char at width 3: it's alone on its line and too wide, the other lines fit *)
Example C23_overflow_example : exists lines, hard_wrap_composite demo skin_default (fc_from demo skin_default (mkMC MQuote [P_Wrap.plain [97; 98; 20013; 32; 99]%N])) 3 = Ret (Some lines)
  /\ map (fun l => (text_of (fc_compounds l), shown demo skin_default l)) lines = [([97%N], 3); ([98%N], 3); ([20013%N], 4); ([99%N], 3)].
Proof. eexists. split; vm_compute; reflexivity. Qed.
(** The exception: a wide whitespace in code, dropped by the cut between the two other compounds *)
Example C23_exact_example : let wide := {| chw := fun c => if N.eqb c 12288 then 5 else 1; strw := sumw (fun c => if N.eqb c 12288 then 5 else 1); is_white := fun c => N.eqb c 12288; is_alnum := fun _ => true |} in
  let cs := [P_Wrap.plain [97; 98]%N; mkCompound [12288]%N false false true false; P_Wrap.plain [99; 100]%N] in
  exists lines, hard_wrap_composite wide skin_default (mkFC KParagraph cs (visible_composite_length wide skin_default KParagraph cs) None) 4 = Ret (Some lines)
  /\ map (fun l => (text_of (fc_compounds l), shown wide skin_default l)) lines = [([97; 98]%N, 2); ([99; 100]%N, 2)].
Proof. cbv zeta. eexists. split; vm_compute; reflexivity. Qed.

(** In a text formatted for a width, whatever the source, a line out of the tables is too wide with its margins only when it's made of one char *)
Theorem C69_overflow : forall u k usize_max text width t, additive u -> 3 <= width -> from_text u k usize_max text (Some width) = Ret t ->
  forall fc lm rm, In (Normal fc) (txt_lines t) -> margins_of k (fc_kind fc) width lm rm ->
  shown u k fc + lm + rm <= width \/ exists c ch, fc_compounds fc = [c] /\ src c = [ch].
Proof.
  intros u k um text width t Hu H3 E fc lm rm Hin Hm. unfold from_text in E. apply bind_Ret_inv in E as (l1 & E1 & E).
  destruct (Nat.leb_spec 3 width); [|lia]. apply bind_Ret_inv in E as ([l3|] & E3 & E); [|discriminate]. injection E as <-. cbn [txt_lines] in Hin.
  assert (Hok : Forall (fun l => match l with Normal fc => length_ok u k fc | _ => True end) (justify_blocks l1)).
  { eapply by_runs_Forall with (P := fun l => match l with Normal fc => length_ok u k fc | _ => True end); [| |apply C34_justified|]; [|auto|].
    - cbv beta. intros t t' _ HP (w & _ & _ & HF). clear - HP HF. induction HF as [|l l' t t' (fc & -> & ->) _ IH]; [constructor|]. inversion HP; subst. constructor; [assumption|auto].
    - apply fix_all_iff in E1. eapply by_runs_Forall with (P := fun l => match l with Normal fc => length_ok u k fc | _ => True end); [| |exact E1|]; [|auto|].
      + intros t t' Ht _ H'. pose proof (laid_tables Ht H') as Ht'. eapply Forall_impl; [|exact Ht']. intros []; auto; discriminate.
      + apply Forall_forall. intros l Hl. apply in_map_iff in Hl as ([c| | | |] & <- & _); cbn; auto. apply C25_from_length. exact Hu. }
  apply C26_lines in E3 as (gs & -> & HF). apply in_concat in Hin as (g & Hg & Hin). destruct (Forall2_r_in HF _ Hg) as (l & Hl & Hr).
  rewrite Forall_forall in Hok. specialize (Hok l Hl). destruct l as [fc0| | |]; try (subst g; destruct Hin as [Hin|[]]; discriminate).
  destruct Hr as (lm' & rm' & Hm' & [(Hle & ->)|(Hgt & fcs & E & ->)]).
  - left. destruct Hin as [Hin|[]]. injection Hin as ->. assert ((lm', rm') = (lm, rm)) as Ep by (destruct Hm as (? & Ea & Eb), Hm' as (? & Ec & Ed); congruence).
    injection Ep as -> ->. unfold length_ok in Hok. rewrite <- Hok. exact Hle.
  - apply in_map_iff in Hin as (fc' & Ef & Hin). injection Ef as ->.
    destruct (C25_kinds _ _ _ _ E) as (f & o & Eo & Hk1 & Hk2 & _).
    assert (Hmm : lm' + rm' <= width /\ lm' = lm /\ rm' = rm).
    { assert (Hw : 3 <= width - lm' - rm') by (apply wrap_inv in E; apply E). split; [lia|].
      assert (Hline : line_style k (fc_kind fc) = line_style k (fc_kind fc0)).
      { rewrite Eo in Hin. destruct Hin as [<-|Hin]; [rewrite Hk1; reflexivity|]. rewrite Forall_forall in Hk2. rewrite (Hk2 _ Hin). destruct (fc_kind fc0); reflexivity. }
      destruct Hm as (? & Ea & Eb), Hm' as (? & Ec & Ed). rewrite Hline in Ea. split; congruence. }
    destruct Hmm as (Hw & -> & ->). pose proof (@C23_overflow u k fc0 _ fcs Hu E) as Hs.
    rewrite Forall_forall in Hs. destruct (Hs _ Hin) as [G|(_ & c & ch & G1 & G2 & _)]; [left; lia|right; exists c, ch; auto].
Qed.
Print Assumptions C69_overflow.
(** A quote and an item whose lines can't be narrow enough, in 3 columns *)
Example C69_overflow_example : exists t, from_text demo skin_default 1000 [MNormal (mkMC MQuote [P_Wrap.plain [20013; 97]%N]); MNormal (mkMC (MListItem 1) [P_Wrap.plain [97]%N]); MNormal (mkMC MParagraph [P_Wrap.plain [97; 98; 99; 100]%N])] (Some 3) = Ret t
  /\ map (fun l => match l with Normal fc => shown demo skin_default fc | _ => 0 end) (txt_lines t) = [2; 4; 3; 3; 4; 3; 1].
Proof. eexists. split; vm_compute; reflexivity. Qed.
