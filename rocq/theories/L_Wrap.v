(** * Lemmas on tokens and wrapping *)
From Verif Require Import Base L_Base M_Style M_Fit S_Fit L_Fit M_Wrap S_Wrap.
Set Implicit Arguments.

Lemma byte_suffix_app a b : byte_suffix (a ++ b) (blen a) = Ret b.
Proof.
  induction a as [|c a IH]; [destruct b; reflexivity|]. pose proof (len_utf8_pos c). rewrite blen_cons. cbn [app].
  assert (E : forall n, 0 < n -> byte_suffix (c :: a ++ b) n = if len_utf8 c <=? n then byte_suffix (a ++ b) (n - len_utf8 c) else Panic)
    by (intros [|n] H'; [lia|reflexivity]).
  rewrite E by lia. destruct (Nat.leb_spec (len_utf8 c) (len_utf8 c + blen a)); [|lia].
  replace (len_utf8 c + blen a - len_utf8 c) with (blen a) by lia. exact IH.
Qed.
Lemma byte_slice_mid a b c : byte_slice (a ++ b ++ c) (blen a) (blen a + blen b) = Ret b.
Proof.
  unfold byte_slice. rewrite csub_ret by lia. rewrite bind_ret, byte_suffix_app, bind_ret.
  replace (blen a + blen b - blen a) with (blen b) by lia. apply byte_prefix_app.
Qed.

(** a token of the compound [c], whose compound is [c'] *)
Definition tok_ok (u : unicode) (max : nat) (c : Compound) (t : Token) (c' : Compound) : Prop :=
  to_compound t = Ret c' /\ flags c' = flags c /\ (exists pre post, src c = pre ++ src c' ++ post) /\ src c' <> []
  /\ t_width t = sumw (chw u) (src c')
  /\ Forall (fun ch => is_white u ch && negb (c_code c) = blank t) (src c')
  /\ (t_width t <= max \/ exists ch, src c' = [ch]).

Lemma tokenize_loop_spec u c max : forall s pre p t,
  src c = pre ++ p ++ s -> p <> [] ->
  t = mkTok c (blank t) (sumw (chw u) p) (blen pre) (blen pre + blen p) ->
  Forall (fun ch => is_white u ch && negb (c_code c) = blank t) p ->
  (t_width t <= max \/ exists ch, p = [ch]) ->
  exists p' cs, Forall2 (tok_ok u max c) (tokenize_loop u c max s (blen pre + blen p) (Some t)) (set_str c (p ++ p') :: cs)
    /\ p ++ p' ++ flat_map src cs = p ++ s /\ maximal u max (c_code c) ((p ++ p') :: map src cs).
Proof.
  induction s as [|ch s IH]; intros pre p t Hsrc Hp Ht Hb Hw; cbn [tokenize_loop];
    assert (exists b, b = blank t) as (b0 & Hb0) by eauto; rewrite <- Hb0 in *.
  - exists [], []. split; [|cbn; rewrite !app_nil_r; split; [reflexivity|constructor]]. rewrite app_nil_r. constructor; [|constructor].
    unfold tok_ok, to_compound. rewrite Ht. cbn [t_compound t_start t_end t_width blank]. rewrite Hsrc, byte_slice_mid, bind_ret.
    split; [reflexivity|]. split; [reflexivity|]. split; [exists pre, []; reflexivity|]. split; [exact Hp|].
    split; [reflexivity|]. split; [assumption|]. rewrite Ht in Hw. exact Hw.
  - set (b := is_white u ch && negb (c_code c)). cbv zeta.
    destruct (Bool.eqb b0 b && (t_width t + chw u ch <=? max)) eqn:E.
    + apply andb_true_iff in E as [E1 E2]. apply Bool.eqb_prop in E1. apply Nat.leb_le in E2.
      replace (blen pre + blen p + len_utf8 ch) with (blen pre + blen (p ++ [ch])) by (rewrite blen_app, blen_cons; cbn; lia).
      destruct (IH pre (p ++ [ch]) (mkTok (t_compound t) b0 (t_width t + chw u ch) (t_start t) (t_end t + len_utf8 ch))) as (p' & cs & HF & Hcs & Hm).
      * rewrite Hsrc, <- app_assoc. reflexivity.
      * destruct p; discriminate.
      * rewrite Ht. cbn [blank t_compound t_width t_start t_end]. f_equal.
        -- rewrite sumw_app. unfold sumw at 3. cbn. lia.
        -- rewrite blen_app, blen_cons. cbn. lia.
      * cbn [blank]. apply Forall_app. split; [exact Hb|]. constructor; [|constructor]. symmetry. exact E1.
      * left. cbn. exact E2.
      * exists (ch :: p'), cs. rewrite <- !app_assoc in *. cbn [app] in *. split; [exact HF|]. split; [|exact Hm].
        exact Hcs.
    + replace (blen pre + blen p) with (blen (pre ++ p)) by apply blen_app.
      replace (blen (pre ++ p) + len_utf8 ch) with (blen (pre ++ p) + blen [ch]) by (cbn; lia).
      destruct (IH (pre ++ p) [ch] (mkTok c b (chw u ch) (blen (pre ++ p)) (blen (pre ++ p) + blen [ch]))) as (p' & cs & HF & Hcs & Hm).
      * rewrite Hsrc, <- app_assoc. reflexivity.
      * discriminate.
      * cbn [blank]. f_equal. unfold sumw. cbn. lia.
      * cbn [blank]. constructor; [reflexivity|constructor].
      * right. eauto.
      * exists [], (set_str c ([ch] ++ p') :: cs). rewrite !app_nil_r. split; [|split].
        -- constructor; [|exact HF].
           unfold tok_ok, to_compound. rewrite Ht. cbn [t_compound t_start t_end t_width blank]. rewrite Hsrc, byte_slice_mid, bind_ret.
           split; [reflexivity|]. split; [reflexivity|]. split; [exists pre, (ch :: s); reflexivity|]. split; [exact Hp|].
           split; [reflexivity|]. split; [assumption|]. rewrite Ht in Hw. exact Hw.
        -- cbn [flat_map app src set_str] in *. f_equal. exact Hcs.
        -- cbn [map src set_str app]. apply mx_cons; [|exact Hm]. fold (is_blank u (c_code c) ch) in b.
           apply andb_false_iff in E as [E|E].
           ++ left. eapply Forall_impl; [|exact Hb]. cbn. intros x Hx. unfold is_blank at 1. rewrite Hx. fold b. destruct b0, b; try discriminate; reflexivity.
           ++ right. apply Nat.leb_gt in E. rewrite Ht in E. exact E.
Qed.

Lemma tokenize_one u c max : exists cs, Forall2 (tok_ok u max c) (tokenize_loop u c max (src c) 0 None) cs /\ flat_map src cs = src c
  /\ maximal u max (c_code c) (map src cs).
Proof.
  destruct (src c) as [|ch s] eqn:E; cbn [tokenize_loop]; [exists []; repeat split; constructor|]. cbv zeta.
  set (b := is_white u ch && negb (c_code c)).
  destruct (@tokenize_loop_spec u c max s [] [ch] (mkTok c b (chw u ch) 0 (0 + len_utf8 ch))) as (p' & cs & HF & Hcs & Hm).
  - exact E.
  - discriminate.
  - cbn [blank]. f_equal; cbn; unfold sumw; cbn; lia.
  - cbn [blank]. constructor; [reflexivity|constructor].
  - right. eauto.
  - exists (set_str c ([ch] ++ p') :: cs). split; [|split; [exact Hcs|exact Hm]].
    replace (0 + len_utf8 ch) with (blen [] + blen [ch]) at 1 by (cbn; lia). exact HF.
Qed.

Lemma styled_same_flags c cs : (forall c', In c' cs -> flags c' = flags c) -> styled cs = map (fun ch => (ch, flags c)) (flat_map src cs).
Proof.
  induction cs as [|x cs IH]; intros H; [reflexivity|]. cbn [styled flat_map]. fold (styled cs). rewrite map_app. rewrite IH by (intros; apply H; right; assumption).
  rewrite (H x) by (left; reflexivity). reflexivity.
Qed.
Lemma styled_app a b : styled (a ++ b) = styled a ++ styled b.
Proof. apply flat_map_app. Qed.

Definition tok_in (u : unicode) (max : nat) (cs0 : list Compound) (t : Token) (c' : Compound) : Prop :=
  exists c, In c cs0 /\ tok_ok u max c t c'.

Lemma Forall2_r_in {A B} (P : A -> B -> Prop) l l' : Forall2 P l l' -> forall b, In b l' -> exists a, In a l /\ P a b.
Proof. induction 1 as [|a b l l' H _ IH]; cbn; [tauto|]. intros x [<-|Hx]; [eauto|]. destruct (IH _ Hx) as (y & ? & ?). eauto. Qed.
Lemma Forall2_l_in {A B} (P : A -> B -> Prop) l l' : Forall2 P l l' -> forall a, In a l -> exists b, In b l' /\ P a b.
Proof. induction 1 as [|a b l l' H _ IH]; cbn; [tauto|]. intros x [<-|Hx]; [eauto|]. destruct (IH _ Hx) as (y & ? & ?). eauto. Qed.
Lemma Forall2_impl' {A B} (P Q : A -> B -> Prop) l l' : (forall a b, P a b -> Q a b) -> Forall2 P l l' -> Forall2 Q l l'.
Proof. intros H. induction 1; constructor; auto. Qed.

Lemma tokenize_spec u max : forall cs0, exists cs, Forall2 (tok_in u max cs0) (tokenize u cs0 max) cs /\ styled cs = styled cs0.
Proof.
  induction cs0 as [|c cs0 (cs & HF & Hs)]; cbn [tokenize flat_map].
  - exists []. split; [constructor|reflexivity].
  - destruct (tokenize_one u c max) as (cs1 & HF1 & Hs1 & _). exists (cs1 ++ cs). split.
    + apply Forall2_app.
      * eapply Forall2_impl'; [|exact HF1]. intros t c' H. exists c. split; [left; reflexivity|exact H].
      * eapply Forall2_impl'; [|exact HF]. intros t c' (c0 & Hin & H). exists c0. split; [right; assumption|exact H].
    + rewrite styled_app, Hs. rewrite (@styled_same_flags c cs1).
      * rewrite Hs1. reflexivity.
      * intros c' Hc'. destruct (Forall2_r_in HF1 _ Hc') as (t & _ & H). apply H.
Qed.

(** ** lines *)
Lemma text_styled cs : map fst (styled cs) = text_of cs.
Proof. induction cs as [|c cs IH]; [reflexivity|]. cbn [styled text_of flat_map]. fold (styled cs) (text_of cs). rewrite map_app, IH, map_map. cbn. rewrite map_id. reflexivity. Qed.
Lemma text_app a b : text_of (a ++ b) = text_of a ++ text_of b.
Proof. apply flat_map_app. Qed.

Definition vcl_ok (u : unicode) (k : MadSkin) (fc : FmtComposite) : Prop :=
  visible_length fc = visible_composite_length u k (fc_kind fc) (fc_compounds fc).
Lemma vcl_shown u k kind cs : additive u -> visible_composite_length u k kind cs = lead k kind + sumw (chw u) (text_of cs).
Proof.
  intros Hu. unfold visible_composite_length.
  assert (E : sum (map (fun c => strw u (src c)) cs) = sumw (chw u) (text_of cs)).
  { induction cs as [|c cs IH]; [reflexivity|]. cbn [map sum text_of flat_map]. rewrite sumw_app, Hu, IH. reflexivity. }
  rewrite E. unfold lead. destruct kind; try reflexivity; [lia|destruct (indent_mode k); lia].
Qed.
Lemma add_vcl u k fc c : vcl_ok u k fc -> vcl_ok u k (add_compound u fc c).
Proof.
  unfold vcl_ok, visible_composite_length, add_compound. cbn [visible_length fc_kind fc_compounds]. intros ->.
  rewrite map_app, sum_app. cbn [map sum]. lia.
Qed.
Lemma follow_up_eq k fc : follow_up_composite k fc = mkFC (next_kind (fc_kind fc)) [] (lead k (next_kind (fc_kind fc))) (fc_spacing fc).
Proof. unfold follow_up_composite, next_kind, lead. destruct (fc_kind fc); try reflexivity; cbv zeta; destruct (indent_mode k); try reflexivity; f_equal; lia. Qed.
Lemma follow_up_vcl u k fc : vcl_ok u k (follow_up_composite k fc).
Proof.
  rewrite follow_up_eq. unfold vcl_ok, visible_composite_length. cbn. unfold lead. destruct (next_kind (fc_kind fc)); try reflexivity; [lia|destruct (indent_mode k); lia].
Qed.
Lemma kind_widths k kind : composite_kind_widths k kind = (lead k kind, lead k (next_kind kind)).
Proof. destruct kind; try reflexivity; cbn; destruct (indent_mode k); try reflexivity; f_equal; lia. Qed.
Lemma lead_next k kind : lead k (next_kind kind) <= lead k kind.
Proof. destruct kind; cbn; try lia. destruct (indent_mode k); lia. Qed.
Lemma next_next kind : next_kind (next_kind kind) = next_kind kind.
Proof. destruct kind; reflexivity. Qed.

(** ** the loop *)
Definition lines_styled (ls : list FmtComposite) : list (char * (bool * bool * bool * bool)) := flat_map (fun l => styled (fc_compounds l)) ls.

Lemma thinned_keep_app u {A} (a : list (char * A)) s d : thinned u s d -> thinned u (a ++ s) (a ++ d).
Proof. induction a; cbn; [auto|]. intros. constructor. auto. Qed.
Lemma thinned_drop_app u {A} (a : list (char * A)) s d : Forall (fun c => is_white u (fst c) = true) a -> thinned u s d -> thinned u (a ++ s) d.
Proof. induction 1; cbn; [auto|]. intros. constructor; auto. Qed.

Definition tok_basic (u : unicode) (t : Token) (c : Compound) : Prop :=
  to_compound t = Ret c /\ src c <> [] /\ t_width t = sumw (chw u) (src c)
  /\ (blank t = true -> Forall (fun ch => is_white u ch = true) (src c) /\ c_code c = false).
Lemma tok_in_basic u max cs0 t c : tok_in u max cs0 t c -> tok_basic u t c.
Proof.
  intros (c0 & _ & H1 & H2 & _ & H3 & H4 & H5 & _). split; [exact H1|]. split; [exact H3|]. split; [exact H4|]. intros Hb.
  rewrite Hb in H5. assert (Ec : c_code c = c_code c0) by (unfold flags in H2; congruence). split.
  - eapply Forall_impl; [|exact H5]. cbn. intros ch E. apply andb_true_iff in E. apply E.
  - rewrite Ec. destruct (src c) as [|ch s]; [congruence|]. inversion H5 as [|? ? E _]; subst. apply andb_true_iff in E as [_ E].
    destruct (c_code c0); [discriminate|reflexivity].
Qed.
Lemma styled_single c : styled [c] = map (fun ch => (ch, flags c)) (src c).
Proof. unfold styled. cbn. apply app_nil_r. Qed.
Lemma white_styled u c : Forall (fun ch => is_white u ch = true) (src c) -> Forall (fun p => is_white u (fst p) = true) (styled [c]).
Proof. rewrite styled_single. intros H. apply Forall_map. exact H. Qed.

Lemma wrap_tokens_spec u k width : forall tokens cs dst, Forall2 (tok_basic u) tokens cs -> vcl_ok u k dst ->
  exists first others d,
  wrap_tokens u k width tokens dst = Ret (first :: others)
  /\ fc_kind first = fc_kind dst /\ fc_spacing first = fc_spacing dst
  /\ (exists cs', fc_compounds first = fc_compounds dst ++ cs' /\ Forall (fun c => src c <> []) cs')
  /\ Forall (fun l => fc_kind l = next_kind (fc_kind dst) /\ fc_spacing l = fc_spacing dst
              /\ fc_compounds l <> [] /\ Forall (fun c => src c <> []) (fc_compounds l)) others
  /\ Forall (vcl_ok u k) (first :: others)
  /\ lines_styled (first :: others) = styled (fc_compounds dst) ++ d /\ thinned u (styled cs) d
  /\ (match tokens with t :: _ => visible_length dst + t_width t <= width -> fc_compounds first <> [] | [] => True end).
Proof.
  induction tokens as [|t tokens IH]; intros cs dst HF Hd; inversion HF as [|? c ? cs' Ht HF']; subst; cbn [wrap_tokens].
  - exists dst, [], []. split; [reflexivity|]. split; [reflexivity|]. split; [reflexivity|]. split; [exists []; rewrite app_nil_r; split; [reflexivity|constructor]|].
    split; [constructor|]. split; [constructor; [exact Hd|constructor]|]. split; [reflexivity|]. split; [constructor|exact I].
  - destruct Ht as (Hc & Hne & Hw & Hb).
    change (styled (c :: cs')) with (styled ([c] ++ cs')). rewrite styled_app.
    destruct (Nat.ltb_spec width (visible_length dst + t_width t)).
    + destruct (blank t) eqn:Eb; cbn [negb].
      * destruct (IH cs' dst HF' Hd) as (first & others & d & E & H1 & H2 & H3 & H4 & H5 & H6 & H7 & _).
        exists first, others, d. split; [exact E|]. split; [exact H1|]. split; [exact H2|]. split; [exact H3|]. split; [exact H4|]. split; [exact H5|]. split; [exact H6|].
        split; [|lia]. apply thinned_drop_app; [|exact H7]. apply white_styled, Hb. reflexivity.
      * rewrite Hc, bind_ret. set (dst' := add_compound u (follow_up_composite k dst) c).
        destruct (IH cs' dst' HF') as (first & others & d & E & H1 & H2 & (ds & H3 & H3') & H4 & H5 & H6 & H7 & _).
        { apply add_vcl, follow_up_vcl. }
        rewrite E, bind_ret. unfold dst' in *. rewrite follow_up_eq in *. unfold add_compound in H1, H2, H3, H4, H6.
        cbn [fc_kind fc_spacing fc_compounds app] in H1, H2, H3, H4, H6.
        exists dst, (first :: others), (styled [c] ++ d). split; [reflexivity|]. split; [reflexivity|]. split; [reflexivity|].
        split; [exists []; rewrite app_nil_r; split; [reflexivity|constructor]|]. split; [|split; [|split; [|split; [|lia]]]].
        -- constructor.
           ++ rewrite H3. repeat split; try assumption; try discriminate. constructor; assumption.
           ++ eapply Forall_impl; [|exact H4]. cbn. intros l. rewrite next_next. auto.
        -- constructor; assumption.
        -- unfold lines_styled in *. cbn [flat_map] in *. rewrite H6. rewrite !app_assoc. reflexivity.
        -- apply thinned_keep_app. exact H7.
    + rewrite Hc, bind_ret. destruct (IH cs' (add_compound u dst c) HF') as (first & others & d & E & H1 & H2 & (ds & H3 & H3') & H4 & H5 & H6 & H7 & _).
      { apply add_vcl, Hd. }
      unfold add_compound in H1, H2, H3, H4, H6. cbn [fc_kind fc_spacing fc_compounds] in H1, H2, H3, H4, H6. 
      exists first, others, (styled [c] ++ d). split; [exact E|]. split; [exact H1|]. split; [exact H2|].
      split; [exists (c :: ds); rewrite H3, <- app_assoc; split; [reflexivity|constructor; assumption]|]. split; [exact H4|]. split; [exact H5|].
      split; [rewrite H6, styled_app, <- app_assoc; reflexivity|]. split; [apply thinned_keep_app; exact H7|].
      intros _. rewrite H3. intros E0. apply app_eq_nil in E0 as [E0 _]. apply app_eq_nil in E0 as [_ E0]. discriminate.
Qed.

(** widths *)
Lemma wrap_tokens_width u k width : additive u -> forall tokens cs dst lines, Forall2 (tok_basic u) tokens cs ->
  visible_length dst <= width -> Forall (fun t => t_width t + lead k (next_kind (fc_kind dst)) <= width) tokens ->
  wrap_tokens u k width tokens dst = Ret lines -> Forall (fun l => visible_length l <= width) lines.
Proof.
  intros Hu. induction tokens as [|t tokens IH]; intros cs dst lines HF Hd Hl; inversion HF as [|? c ? cs' Ht HF']; subst; cbn [wrap_tokens].
  - intros E. injection E as <-. constructor; [exact Hd|constructor].
  - destruct Ht as (Hc & Hne & Hw & Hb). inversion Hl as [|? ? Htw Hl']; subst.
    destruct (Nat.ltb_spec width (visible_length dst + t_width t)).
    + destruct (negb (blank t)); [|apply (IH cs'); assumption].
      rewrite Hc, bind_ret. intros E. apply bind_Ret_inv in E as (rest & E & E'). injection E' as <-. constructor; [exact Hd|].
      apply (IH cs') in E; [exact E|assumption|..].
      * rewrite follow_up_eq. cbn. rewrite Hu, <- Hw. lia.
      * rewrite follow_up_eq. cbn. rewrite next_next. exact Hl'.
    + rewrite Hc, bind_ret. apply (IH cs'); [assumption| |exact Hl']. cbn. rewrite Hu, <- Hw. exact H.
Qed.

(** gaps: when a dropped blank is never wider than what follows *)
Lemma white_gap_app u {A} (a b : list (char * A)) : Forall (fun c => is_white u (fst c) = true) a -> Forall (fun c => is_white u (fst c) = true) b ->
  Forall (fun c => is_white u (fst c) = true) (a ++ b).
Proof. intros. apply Forall_app. split; assumption. Qed.

Lemma wrap_tokens_broken u k width : additive u -> forall tokens cs dst gap lines, Forall2 (tok_basic u) tokens cs ->
  visible_length dst <= width -> (gap <> [] -> visible_length dst = width) -> Forall (fun c => is_white u (fst c) = true) gap ->
  Forall (fun t => t_width t + lead k (next_kind (fc_kind dst)) <= width) tokens ->
  Forall (fun t => if blank t then t_width t = 1 else 0 < t_width t) tokens ->
  wrap_tokens u k width tokens dst = Ret lines ->
  broken u (styled (fc_compounds dst) ++ gap ++ styled cs) (map (fun l => styled (fc_compounds l)) lines).
Proof.
  intros Hu. induction tokens as [|t tokens IH]; intros cs dst gap lines HF Hd Hg Hgw Hl Hbw; inversion HF as [|? c ? cs' Ht HF']; subst; cbn [wrap_tokens].
  - intros E. injection E as <-. cbn. rewrite app_nil_r. apply br_last. exact Hgw.
  - destruct Ht as (Hc & Hne & Hw & Hb). inversion Hl as [|? ? Htw Hl']; subst. inversion Hbw as [|? ? Htb Hbw']; subst.
    change (styled (c :: cs')) with (styled ([c] ++ cs')). rewrite styled_app.
    destruct (Nat.ltb_spec width (visible_length dst + t_width t)).
    + destruct (blank t) eqn:Eb; cbn [negb].
      * intros E. rewrite (app_assoc gap). apply (IH cs' dst); try assumption.
        -- intros _. lia.
        -- apply white_gap_app; [exact Hgw|]. apply white_styled, Hb. reflexivity.
      * rewrite Hc, bind_ret. intros E. apply bind_Ret_inv in E as (rest & E & E'). injection E' as <-. cbn [map].
        apply br_line; [exact Hgw|].
        apply (IH cs' _ []) in E; try assumption.
        -- rewrite follow_up_eq. cbn. rewrite Hu, <- Hw. lia.
        -- congruence.
        -- constructor.
        -- rewrite follow_up_eq. cbn. rewrite next_next. exact Hl'.
    + assert (gap = []) as ->. { destruct gap; [reflexivity|]. assert (visible_length dst = width) by (apply Hg; discriminate). destruct (blank t); lia. }
      rewrite Hc, bind_ret. intros E. apply (IH cs' _ []) in E; try assumption.
      * cbn [app fc_compounds add_compound] in *. rewrite styled_app in E. rewrite <- app_assoc in E. exact E.
      * cbn. rewrite Hu, <- Hw. exact H.
      * congruence.
Qed.

Lemma vcl_length_ok u k fc : additive u -> (vcl_ok u k fc <-> length_ok u k fc).
Proof. intros Hu. unfold vcl_ok, length_ok, shown. rewrite (vcl_shown _ _ _ Hu). reflexivity. Qed.

Lemma wrap_tokens_greedy u k width : additive u -> forall tokens cs dst lines, Forall2 (tok_basic u) tokens cs -> vcl_ok u k dst ->
  wrap_tokens u k width tokens dst = Ret lines -> greedy u k width lines /\ Forall (fun l => fc_compounds l = [] -> l = dst) lines.
Proof.
  intros Hu. induction tokens as [|t tokens IH]; intros cs dst lines HF Hd; inversion HF as [|? c ? cs' Ht HF']; subst; cbn [wrap_tokens].
  - intros E. injection E as <-. split; [split; exact I|]. constructor; [reflexivity|constructor].
  - pose proof Ht as Ht'. destruct Ht as (Hc & Hne & Hw & Hb).
    destruct (Nat.ltb_spec width (visible_length dst + t_width t)).
    + destruct (blank t); cbn [negb]; [apply (IH cs'); assumption|].
      rewrite Hc, bind_ret. intros E. apply bind_Ret_inv in E as (rest & E & E'). injection E' as <-.
      set (dst' := add_compound u (follow_up_composite k dst) c) in E.
      assert (Hd' : vcl_ok u k dst') by apply add_vcl, follow_up_vcl.
      destruct (@wrap_tokens_spec u k width tokens cs' dst' HF' Hd') as (first & others & d & E1 & _ & _ & (cs1 & E2 & _) & _).
      destruct (IH cs' dst' rest HF' Hd' E) as [IH1 IH2].
      rewrite E1 in E. injection E as <-. split.
      * split; [|exact IH1]. exists c, cs1. split; [rewrite E2; unfold dst'; rewrite follow_up_eq; reflexivity|].
        rewrite <- Hw. apply (vcl_length_ok k dst Hu) in Hd. rewrite <- Hd. exact H.
      * constructor; [reflexivity|]. eapply Forall_impl; [|exact IH2]. cbn. intros l Hl E. rewrite (Hl E) in E.
        unfold dst' in E. rewrite follow_up_eq in E. discriminate.
    + rewrite Hc, bind_ret. intros E. destruct (IH cs' _ lines HF' (add_vcl c Hd) E) as [IH1 IH2]. split; [exact IH1|].
      eapply Forall_impl; [|exact IH2]. cbn. intros l Hl E'. rewrite (Hl E') in E'. cbn in E'. apply app_eq_nil in E' as [_ E']. discriminate.
Qed.

(** ** hard_wrap_composite *)
Lemma tokens_basic u max cs0 : exists cs, Forall2 (tok_basic u) (tokenize u cs0 max) cs /\ styled cs = styled cs0
  /\ Forall2 (tok_in u max cs0) (tokenize u cs0 max) cs.
Proof.
  destruct (tokenize_spec u max cs0) as (cs & HF & E). exists cs. split; [|split; assumption].
  eapply Forall2_impl'; [|exact HF]. intros t c. apply tok_in_basic.
Qed.
Lemma tokens_width u max cs0 t : In t (tokenize u cs0 max) -> t_width t <= max \/ exists ch, In ch (text_of cs0) /\ t_width t = chw u ch.
Proof.
  intros Hin. destruct (tokenize_spec u max cs0) as (cs & HF & E). destruct (Forall2_l_in HF _ Hin) as (c' & Hc' & c & Hc & H).
  destruct H as (_ & _ & (pre & post & Es) & _ & Hw & _ & [H|(ch & H)]); [left; exact H|right]. exists ch. split.
  - unfold text_of. apply in_flat_map. exists c. split; [exact Hc|]. rewrite Es, H. apply in_or_app. right. left. reflexivity.
  - rewrite Hw, H. unfold sumw. cbn. lia.
Qed.
Lemma tokens_blank u max cs0 t : In t (tokenize u cs0 max) ->
  (forall c, In c cs0 -> c_code c = false -> no_double_white u (src c)) ->
  (forall ch, In ch (text_of cs0) -> 1 <= chw u ch /\ (is_white u ch = true -> chw u ch = 1)) ->
  if blank t then t_width t = 1 else 0 < t_width t.
Proof.
  intros Hin Hn Hch. destruct (tokenize_spec u max cs0) as (cs & HF & E). destruct (Forall2_l_in HF _ Hin) as (c' & Hc' & c & Hc & H).
  destruct H as (_ & _ & (pre & post & Es) & Hne & Hw & Hb & _).
  assert (Hin' : forall ch, In ch (src c') -> In ch (text_of cs0)).
  { intros ch H. unfold text_of. apply in_flat_map. exists c. split; [exact Hc|]. rewrite Es. apply in_or_app. right. apply in_or_app. left. exact H. }
  destruct (src c') as [|ch s] eqn:Esrc; [congruence|]. rewrite Hw. destruct (blank t) eqn:Eb.
  - assert (s = []) as ->.
    { destruct s as [|ch' s]; [reflexivity|exfalso]. inversion Hb as [|? ? B1 B2]; subst. inversion B2 as [|? ? B3 _]; subst.
      apply andb_true_iff in B1 as [B1 Bc]. apply andb_true_iff in B3 as [B3 _]. apply negb_true_iff in Bc.
      specialize (Hn c Hc Bc). rewrite Es in Hn. clear - Hn B1 B3. induction pre as [|x pre IH]; cbn in Hn.
      - destruct Hn as [Hn _]. apply Hn. split; assumption.
      - apply IH. destruct Hn as [_ Hn]. exact Hn. }
    unfold sumw. cbn. inversion Hb as [|? ? B1 _]; subst. apply andb_true_iff in B1 as [B1 _].
    destruct (Hch ch) as [_ H]; [apply Hin'; left; reflexivity|]. rewrite (H B1). lia.
  - rewrite sumw_cons. destruct (Hch ch) as [H _]; [apply Hin'; left; reflexivity|]. lia.
Qed.

(** the two ways to wrap *)
Lemma wrap_inv u k fc width lines : hard_wrap_composite u k fc width = Ret (Some lines) ->
  3 <= width /\ width < visible_length fc /\
  let fw := lead k (fc_kind fc) in let ow := lead k (next_kind (fc_kind fc)) in
  (exists a b, clean_cut u fw ow width (fc_compounds fc) = Some (a, b)
     /\ lines = [mkFC (fc_kind fc) [a] (fw + strw u (src a)) (fc_spacing fc); mkFC (next_kind (fc_kind fc)) [b] (ow + strw u (src b)) (fc_spacing fc)])
  \/ (clean_cut u fw ow width (fc_compounds fc) = None /\ fw <= width
     /\ wrap_tokens u k width (tokenize u (fc_compounds fc) (width - fw)) (mkFC (fc_kind fc) [] fw (fc_spacing fc)) = Ret lines).
Proof.
  unfold hard_wrap_composite. destruct (Nat.ltb_spec width 3); [discriminate|]. destruct (Nat.leb_spec (visible_length fc) width); [discriminate|].
  rewrite kind_widths. cbv zeta. intros E. split; [assumption|]. split; [assumption|].
  destruct (clean_cut _ _ _ _ _) as [[a b]|] eqn:Ec.
  - left. exists a, b. split; [reflexivity|]. injection E as <-. rewrite follow_up_eq. unfold add_compound. cbn. reflexivity.
  - right. split; [reflexivity|]. apply bind_Ret_inv in E as (m & E1 & E). apply csub_inv in E1 as [H1 ->]. split; [exact H1|].
    apply bind_Ret_inv in E as (ls & E & E2). injection E2 as ->. exact E.
Qed.
Lemma clean_cut_inv u fw ow width cs a b : clean_cut u fw ow width cs = Some (a, b) ->
  strw u (src a) + fw <= width /\ strw u (src b) + ow <= width /\
  (cs = [a; b] \/ exists m, cs = [a; m; b] /\ Forall (fun c => is_white u c = true) (src m)).
Proof.
  unfold clean_cut. destruct cs as [|x [|y [|z [|? ?]]]]; try discriminate.
  - destruct (_ && _) eqn:E; [|discriminate]. intros E'. injection E' as <- <-. apply andb_true_iff in E as [E1 E2].
    apply Nat.leb_le in E1, E2. auto.
  - destruct (_ && _) eqn:E; [|discriminate]. intros E'. injection E' as <- <-. apply andb_true_iff in E as [E E3]. apply andb_true_iff in E as [E1 E2].
    apply Nat.leb_le in E1, E2. split; [exact E1|]. split; [exact E2|]. right. exists y. split; [reflexivity|]. apply Forall_forall. apply forallb_forall. exact E3.
Qed.
Lemma start_vcl u k kind sp : vcl_ok u k (mkFC kind [] (lead k kind) sp).
Proof. unfold vcl_ok, visible_composite_length. cbn. unfold lead. destruct kind; try reflexivity; [lia|destruct (indent_mode k); lia]. Qed.
Lemma clean_vcl u k kind c sp : vcl_ok u k (mkFC kind [c] (lead k kind + strw u (src c)) sp).
Proof. unfold vcl_ok, visible_composite_length. cbn. unfold lead. destruct kind; try lia. destruct (indent_mode k); lia. Qed.
Lemma thinned_refl u {A} (l : list (char * A)) : thinned u l l.
Proof. induction l; constructor; auto. Qed.
