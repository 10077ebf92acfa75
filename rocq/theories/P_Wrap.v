(** * Properties C23 to C26 and C67: wrapping *)
From Verif Require Import Base L_Base Demo M_Style M_Fit S_Fit L_Fit M_Wrap S_Wrap L_Wrap M_TblFit M_Text S_Text.
Set Implicit Arguments.

(** ** C23 *)

(** The lines fit as soon as no char is too wide for the lines after the first one *)
Theorem C23_lines_fit_partial : forall u k fc width lines, additive u ->
  hard_wrap_composite u k fc width = Ret (Some lines) ->
  (forall c, In c (text_of (fc_compounds fc)) -> chw u c + lead k (next_kind (fc_kind fc)) <= width) ->
  Forall (fun l => shown u k l <= width) lines.
Proof.
  intros u k fc width lines Hu E Hc. apply wrap_inv in E as (H3 & Hv & [(a & b & E & ->)|(E & Hl & Ew)]).
  - apply clean_cut_inv in E as (H1 & H2 & _). unfold shown. constructor; [|constructor; [|constructor]]; cbn [fc_kind fc_compounds text_of flat_map]; rewrite app_nil_r, <- (Hu (src _)); lia.
  - destruct (tokens_basic u (width - lead k (fc_kind fc)) (fc_compounds fc)) as (cs & HF & Es & _).
    destruct (@wrap_tokens_spec u k width _ cs _ HF (start_vcl u k (fc_kind fc) (fc_spacing fc))) as (first & others & d & E1 & _ & _ & _ & _ & Hok & _).
    rewrite Ew in E1. injection E1 as ->. 
    assert (HW : Forall (fun l => visible_length l <= width) (first :: others)).
    { eapply wrap_tokens_width; [exact Hu|exact HF| |..|exact Ew]; [exact Hl|]. apply Forall_forall. intros t Ht. cbn [fc_kind].
      pose proof (lead_next k (fc_kind fc)).
      destruct (tokens_width u _ _ _ Ht) as [H'|(ch & Hin & ->)]; [lia|]. apply Hc. exact Hin. }
    rewrite Forall_forall in *. intros l Hin. specialize (Hok l Hin). apply (vcl_length_ok k l Hu) in Hok. rewrite <- Hok. apply HW. exact Hin.
Qed.
Print Assumptions C23_lines_fit_partial.

(** Paragraphs, headers and code always fit when chars are at most 2 columns wide *)
Theorem C23_plain_lines_fit : forall u k fc width lines, additive u -> (forall c, chw u c <= 2) -> lead k (fc_kind fc) = 0 ->
  hard_wrap_composite u k fc width = Ret (Some lines) -> Forall (fun l => shown u k l <= width) lines.
Proof.
  intros u k fc width lines Hu H2 H0 E. eapply C23_lines_fit_partial; [exact Hu|exact E|]. intros c _.
  apply wrap_inv in E as (H3 & _). pose proof (lead_next k (fc_kind fc)). specialize (H2 c). lia.
Qed.
Print Assumptions C23_plain_lines_fit.

Definition plain (s : str) : Compound := mkCompound s false false false false.
Definition item d s := fc_from demo skin_default (mkMC (MListItem d) [plain s]).
Definition para s := fc_from demo skin_default (mkMC MParagraph [plain s]).
(** "ab cde fgh" at 5 columns *)
Example C23_example : exists lines, hard_wrap_composite demo skin_default (para [97;98;32;99;100;101;32;102;103;104]%N) 5 = Ret (Some lines)
  /\ length lines = 3 /\ map (shown demo skin_default) lines = [3; 4; 3].
Proof. eexists. split; [vm_compute; reflexivity|]. vm_compute. split; reflexivity. Qed.

(** A wide char in a quote at width 3 *)
Theorem C23_wide_quote_refuted : exists fc lines, hard_wrap_composite demo skin_default fc 3 = Ret (Some lines)
  /\ length_ok demo skin_default fc /\ exists l, In l lines /\ 3 < shown demo skin_default l.
Proof.
  exists (fc_from demo skin_default (mkMC MQuote [plain [20013; 22269]%N])). eexists. split; [vm_compute; reflexivity|].
  split; [reflexivity|]. eexists. split; [right; left; reflexivity|]. vm_compute. lia.
Qed.
(** A list item of depth 1 at width 3 (with the default skin, list items are indented in block):
    each letter gives a line of 4 columns *)
Theorem C23_item_refuted : exists fc lines, hard_wrap_composite demo skin_default fc 3 = Ret (Some lines)
  /\ length_ok demo skin_default fc /\ (forall c, In c (text_of (fc_compounds fc)) -> chw demo c = 1) /\ exists l, In l lines /\ 3 < shown demo skin_default l.
Proof.
  exists (item 1 [97; 98]%N). eexists. split; [vm_compute; reflexivity|].
  split; [reflexivity|]. split; [intros c H; cbn in H; repeat (destruct H as [<-|H]; [reflexivity|]); destruct H|].
  eexists. split; [right; left; reflexivity|]. vm_compute. lia.
Qed.

(** ** C24 *)

(** Only whitespaces disappear, the rest is kept in order, with its style *)
Theorem C24_text_kept : forall u k fc width lines, hard_wrap_composite u k fc width = Ret (Some lines) ->
  thinned u (styled (fc_compounds fc)) (flat_map (fun l => styled (fc_compounds l)) lines).
Proof.
  intros u k fc width lines E. apply wrap_inv in E as (H3 & Hv & [(a & b & E & ->)|(E & Hl & Ew)]).
  - cbn [flat_map fc_compounds]. rewrite app_nil_r, <- styled_app.
    apply clean_cut_inv in E as (_ & _ & [->|(m & -> & Hm)]); [apply thinned_refl|].
    change [a; m; b] with ([a] ++ [m] ++ [b]). rewrite !styled_app. apply thinned_keep_app. apply thinned_drop_app; [|apply thinned_refl].
    apply white_styled. exact Hm.
  - destruct (tokens_basic u (width - lead k (fc_kind fc)) (fc_compounds fc)) as (cs & HF & Es & _).
    destruct (@wrap_tokens_spec u k width _ cs _ HF (start_vcl u k (fc_kind fc) (fc_spacing fc))) as (first & others & d & E1 & _ & _ & _ & _ & _ & Ht & Hd & _).
    rewrite Ew in E1. injection E1 as ->. unfold lines_styled in Ht. rewrite Ht. cbn [fc_compounds app styled flat_map]. rewrite <- Es. exact Hd.
Qed.
Print Assumptions C24_text_kept.

Theorem C24_non_blank_kept : forall u k fc width lines, hard_wrap_composite u k fc width = Ret (Some lines) ->
  filter (fun c => negb (is_white u (fst c))) (flat_map (fun l => styled (fc_compounds l)) lines)
  = filter (fun c => negb (is_white u (fst c))) (styled (fc_compounds fc)).
Proof.
  intros u k fc width lines E. apply C24_text_kept in E. induction E as [|c s d _ IH|c s d Hc _ IH]; [reflexivity|..]; cbn [filter].
  - rewrite IH. reflexivity.
  - rewrite Hc. exact IH.
Qed.
Print Assumptions C24_non_blank_kept.

(** With single spaces (out of inline code), a line is broken in place of the dropped spaces: the source is the lines,
    separated only by the dropped spaces, so that words separated in the source are still separated *)
Theorem C24_not_glued_partial : forall u k fc width lines, additive u -> hard_wrap_composite u k fc width = Ret (Some lines) ->
  (forall c, In c (fc_compounds fc) -> c_code c = false -> no_double_white u (src c)) ->
  (forall c, In c (text_of (fc_compounds fc)) -> 1 <= chw u c /\ (is_white u c = true -> chw u c = 1)
     /\ chw u c + lead k (next_kind (fc_kind fc)) <= width) ->
  broken u (styled (fc_compounds fc)) (map (fun l => styled (fc_compounds l)) lines).
Proof.
  intros u k fc width lines Hu E Hn Hc. apply wrap_inv in E as (H3 & Hv & [(a & b & E & ->)|(E & Hl & Ew)]).
  - cbn [map fc_compounds]. apply clean_cut_inv in E as (_ & _ & [->|(m & -> & Hm)]).
    + change [a; b] with ([a] ++ [b]). rewrite styled_app. change (styled [a] ++ styled [b]) with (styled [a] ++ [] ++ styled [b]).
      apply br_line; [constructor|]. replace (styled [b]) with (styled [b] ++ []) at 1 by apply app_nil_r. apply br_last. constructor.
    + change [a; m; b] with ([a] ++ [m] ++ [b]). rewrite !styled_app. apply br_line; [apply white_styled; exact Hm|].
      replace (styled [b]) with (styled [b] ++ []) at 1 by apply app_nil_r. apply br_last. constructor.
  - destruct (tokens_basic u (width - lead k (fc_kind fc)) (fc_compounds fc)) as (cs & HF & Es & _).
    rewrite <- Es.
    change (styled cs) with (styled (fc_compounds (mkFC (fc_kind fc) [] (lead k (fc_kind fc)) (fc_spacing fc))) ++ [] ++ styled cs).
    eapply wrap_tokens_broken; [exact Hu|exact HF|exact Hl|congruence|constructor|..|exact Ew]; apply Forall_forall; intros t Ht; cbn [fc_kind].
    + pose proof (lead_next k (fc_kind fc)). destruct (tokens_width u _ _ _ Ht) as [H'|(ch & Hin & ->)]; [lia|]. apply Hc. exact Hin.
    + eapply tokens_blank; [exact Ht|exact Hn|]. intros ch Hin. destruct (Hc ch Hin) as (A & B & _). split; assumption.
Qed.
Print Assumptions C24_not_glued_partial.

(** with "ab cd  " (style change) ... *)
Example C24_example : exists lines, hard_wrap_composite demo skin_default (para [97;98;32;99;100;101;32;102;103;104]%N) 5 = Ret (Some lines)
  /\ map (fun l => text_of (fc_compounds l)) lines = [[97;98;32]; [99;100;101;32]; [102;103;104]]%N.
Proof. eexists. split; vm_compute; reflexivity. Qed.

(** "aaaa   b" at width 5 gives "aaaab": the three spaces don't fit and are dropped, then the b fits *)
Theorem C24_glued_refuted : exists fc lines, hard_wrap_composite demo skin_default fc 5 = Ret (Some lines) /\ length_ok demo skin_default fc
  /\ text_of (fc_compounds fc) = [97;97;97;97;32;32;32;98]%N /\ map (fun l => text_of (fc_compounds l)) lines = [[97;97;97;97;98]]%N.
Proof.
  exists (para [97;97;97;97;32;32;32;98]%N). eexists. split; [vm_compute; reflexivity|]. split; [reflexivity|]. split; vm_compute; reflexivity.
Qed.

(** ** C25 *)

Theorem C25_kinds : forall u k fc width lines, hard_wrap_composite u k fc width = Ret (Some lines) -> exists first others,
  lines = first :: others /\ fc_kind first = fc_kind fc
  /\ Forall (fun l => fc_kind l = next_kind (fc_kind fc)) others
  /\ Forall (fun l => fc_spacing l = fc_spacing fc) lines.
Proof.
  intros u k fc width lines E. apply wrap_inv in E as (H3 & Hv & [(a & b & E & ->)|(E & Hl & Ew)]).
  - eexists _, _. split; [reflexivity|]. split; [reflexivity|]. split; repeat constructor.
  - destruct (tokens_basic u (width - lead k (fc_kind fc)) (fc_compounds fc)) as (cs & HF & Es & _).
    destruct (@wrap_tokens_spec u k width _ cs _ HF (start_vcl u k (fc_kind fc) (fc_spacing fc))) as (first & others & d & E1 & Hk & Hs & _ & Ho & _).
    rewrite Ew in E1. injection E1 as ->. exists first, others. cbn [fc_kind fc_spacing] in *. split; [reflexivity|]. split; [exact Hk|].
    split; [|constructor; [exact Hs|]]; (eapply Forall_impl; [|exact Ho]); cbn; tauto.
Qed.
Print Assumptions C25_kinds.

Theorem C25_cached_length : forall u k fc width lines, additive u -> hard_wrap_composite u k fc width = Ret (Some lines) ->
  Forall (length_ok u k) lines.
Proof.
  intros u k fc width lines Hu E. assert (H : Forall (vcl_ok u k) lines).
  { apply wrap_inv in E as (H3 & Hv & [(a & b & E & ->)|(E & Hl & Ew)]).
    - constructor; [apply clean_vcl|constructor; [apply clean_vcl|constructor]].
    - destruct (tokens_basic u (width - lead k (fc_kind fc)) (fc_compounds fc)) as (cs & HF & Es & _).
      destruct (@wrap_tokens_spec u k width _ cs _ HF (start_vcl u k (fc_kind fc) (fc_spacing fc))) as (first & others & d & E1 & _ & _ & _ & _ & Hok & _).
      rewrite Ew in E1. injection E1 as ->. exact Hok. }
  eapply Forall_impl; [|exact H]. intros l Hl. apply vcl_length_ok; assumption.
Qed.
Print Assumptions C25_cached_length.

(** The cached length of what comes from the parser is right too *)
Theorem C25_from_length : forall u k c, additive u -> length_ok u k (fc_from u k c).
Proof. intros u k c Hu. apply vcl_length_ok; [exact Hu|]. reflexivity. Qed.
Print Assumptions C25_from_length.

Theorem C25_not_empty_partial : forall u k fc width lines, additive u -> hard_wrap_composite u k fc width = Ret (Some lines) ->
  length_ok u k fc -> Forall (fun c => src c <> []) (fc_compounds fc) ->
  (forall c, In c (text_of (fc_compounds fc)) -> chw u c + lead k (fc_kind fc) <= width) ->
  Forall (fun l => text_of (fc_compounds l) <> []) lines.
Proof.
  intros u k fc width lines Hu E Hok Hne Hc. apply wrap_inv in E as (H3 & Hv & [(a & b & E & ->)|(E & Hl & Ew)]).
  - apply clean_cut_inv in E as (_ & _ & Hcs).
    assert (src a <> [] /\ src b <> []) as [Ha Hb].
    { rewrite Forall_forall in Hne. destruct Hcs as [Ecs|(m & Ecs & _)]; rewrite Ecs in Hne; split; apply Hne; cbn; tauto. }
    constructor; [|constructor; [|constructor]]; cbn; rewrite app_nil_r; assumption.
  - destruct (tokens_basic u (width - lead k (fc_kind fc)) (fc_compounds fc)) as (cs & HF & Es & _).
    destruct (@wrap_tokens_spec u k width _ cs _ HF (start_vcl u k (fc_kind fc) (fc_spacing fc))) as (first & others & d & E1 & _ & _ & (ds & Hf & Hds) & Ho & _ & _ & _ & Hfst).
    rewrite Ew in E1. injection E1 as ->. cbn [fc_compounds app visible_length] in *.
    assert (Hgo : forall l, fc_compounds l <> [] -> Forall (fun c => src c <> []) (fc_compounds l) -> text_of (fc_compounds l) <> []).
    { intros l H1 H2 E0. destruct (fc_compounds l) as [|c r]; [congruence|]. inversion H2; subst. cbn in E0. apply app_eq_nil in E0 as [E0 _]. congruence. }
    constructor.
    + apply Hgo; [|rewrite Hf; exact Hds].
      destruct (tokenize u (fc_compounds fc) (width - lead k (fc_kind fc))) as [|t ts] eqn:Et.
      * exfalso. inversion HF; subst. apply (f_equal (map fst)) in Es. rewrite !text_styled in Es. unfold length_ok, shown in Hok. rewrite <- Es in Hok.
        cbn in Hok. lia.
      * apply Hfst. assert (Ht : In t (tokenize u (fc_compounds fc) (width - lead k (fc_kind fc)))) by (rewrite Et; left; reflexivity).
        destruct (tokens_width u _ _ _ Ht) as [H'|(ch & Hin & ->)]; [lia|]. specialize (Hc ch Hin). lia.
    + eapply Forall_impl; [|exact Ho]. cbn. intros l (_ & _ & H1 & H2). apply Hgo; assumption.
Qed.
Print Assumptions C25_not_empty_partial.

Definition list_skin (m : IndentMode) : MadSkin :=
  let k := skin_default in
  mkSkin (paragraph k) (bold k) (italic k) (strikeout k) (inline_code k) (code_block k) (headers k) (scrollbar k) (table k) (bullet k)
    (quote_mark k) (horizontal_rule k) (ellipsis k) (table_border_chars k) m.
Example C25_example : exists lines, hard_wrap_composite demo (list_skin Block) (item 1 [97;98;32;99;100;101]%N) 6 = Ret (Some lines)
  /\ map fc_kind lines = [KListItem 1; KListItemFollowUp 1] /\ map visible_length lines = [6; 6].
Proof. eexists. split; vm_compute; [reflexivity|]. split; reflexivity. Qed.

(** Two wide chars in a list item, at width 3: the first line has only the bullet *)
Theorem C25_empty_line_refuted : exists fc lines, hard_wrap_composite demo (list_skin FirstLineOnly) fc 3 = Ret (Some lines)
  /\ length_ok demo (list_skin FirstLineOnly) fc /\ exists l, In l lines /\ text_of (fc_compounds l) = [].
Proof.
  exists (item 0 [20013; 22269]%N). eexists. split; [vm_compute; reflexivity|]. split; [reflexivity|].
  eexists. split; [left; reflexivity|]. reflexivity.
Qed.

(** ** C67: the cut in words, and greedy filling *)
Theorem C67_words : forall u c max, exists pieces, cut_in_words u max (c_code c) (src c) pieces
  /\ Forall2 (fun t p => to_compound t = Ret (mkCompound p (c_bold c) (c_italic c) (c_code c) (c_strikeout c))
                         /\ t_width t = sumw (chw u) p /\ Forall (fun ch => is_blank u (c_code c) ch = blank t) p)
       (tokenize u [c] max) pieces.
Proof.
  intros u c max. destruct (tokenize_one u c max) as (cs & HF & Hs & Hm). exists (map src cs). split; [split; [|split]|].
  - rewrite <- flat_map_concat_map. exact Hs.
  - exact Hm.
  - apply Forall_map. apply Forall_forall. intros c' Hc'. destruct (Forall2_r_in HF _ Hc') as (t & _ & H). destruct H as (_ & _ & _ & H1 & H2 & H3 & H4).
    split; [exact H1|]. split; [exists (blank t); exact H3|]. rewrite <- H2. destruct H4 as [H4|(ch & ->)]; [left; exact H4|right; reflexivity].
  - unfold tokenize. cbn [flat_map]. rewrite app_nil_r. clear Hs Hm. induction HF as [|t c' ts cs H _ IH]; cbn [map]; constructor; [|exact IH].
    destruct H as (H0 & Hf & _ & _ & H2 & H3 & _). split; [|split; assumption]. rewrite H0. f_equal. destruct c' as [s b i co st]. unfold flags in Hf. cbn in *. congruence.
Qed.
Print Assumptions C67_words.

(** compounds are cut one after the other *)
Theorem C67_compounds : forall u max a b, tokenize u (a ++ b) max = tokenize u a max ++ tokenize u b max.
Proof. intros. apply flat_map_app. Qed.
Print Assumptions C67_compounds.

Theorem C67_greedy : forall u k fc width lines, additive u -> hard_wrap_composite u k fc width = Ret (Some lines) ->
  length (fc_compounds fc) <> 2 -> length (fc_compounds fc) <> 3 -> greedy u k width lines.
Proof.
  intros u k fc width lines Hu E N2 N3. apply wrap_inv in E as (H3 & Hv & [(a & b & E & ->)|(E & Hl & Ew)]).
  - apply clean_cut_inv in E as (_ & _ & [E|(m & E & _)]); rewrite E in *; cbn in *; lia.
  - destruct (tokens_basic u (width - lead k (fc_kind fc)) (fc_compounds fc)) as (cs & HF & Es & _).
    eapply wrap_tokens_greedy; [exact Hu|exact HF|apply start_vcl|exact Ew].
Qed.
Print Assumptions C67_greedy.

(** When there are two parts of different styles which fit on two lines, or three with only spaces between, it's between them that it's cut *)
Theorem C67_clean_cut : forall u k fc width a b m, additive u -> 3 <= width -> width < visible_length fc ->
  fc_compounds fc = a :: m ++ [b] -> m = [] \/ (exists c, m = [c] /\ Forall (fun ch => is_white u ch = true) (src c)) ->
  lead k (fc_kind fc) + sumw (chw u) (src a) <= width -> lead k (next_kind (fc_kind fc)) + sumw (chw u) (src b) <= width ->
  exists l1 l2, hard_wrap_composite u k fc width = Ret (Some [l1; l2]) /\ fc_compounds l1 = [a] /\ fc_compounds l2 = [b].
Proof.
  intros u k fc width a b m Hu H3 Hv Hcs Hm Ha Hb. unfold hard_wrap_composite.
  destruct (Nat.ltb_spec width 3); [lia|]. destruct (Nat.leb_spec (visible_length fc) width); [lia|]. rewrite kind_widths. cbv zeta.
  assert (E : clean_cut u (lead k (fc_kind fc)) (lead k (next_kind (fc_kind fc))) width (fc_compounds fc) = Some (a, b)).
  { rewrite Hcs. unfold clean_cut. destruct Hm as [->|(c & -> & Hc)]; cbn [app]; rewrite !Hu.
    - destruct (Nat.leb_spec (sumw (chw u) (src a) + lead k (fc_kind fc)) width); [|lia].
      destruct (Nat.leb_spec (sumw (chw u) (src b) + lead k (next_kind (fc_kind fc))) width); [|lia]. reflexivity.
    - destruct (Nat.leb_spec (sumw (chw u) (src a) + lead k (fc_kind fc)) width); [|lia].
      destruct (Nat.leb_spec (sumw (chw u) (src b) + lead k (next_kind (fc_kind fc))) width); [|lia].
      replace (forallb (is_white u) (src c)) with true; [reflexivity|]. symmetry. apply forallb_forall. apply Forall_forall. exact Hc. }
  rewrite E. eexists _, _. split; [reflexivity|]. rewrite follow_up_eq. split; reflexivity.
Qed.
Print Assumptions C67_clean_cut.

Example C67_example : exists lines, hard_wrap_composite demo skin_default
    (fc_from demo skin_default (mkMC MParagraph [plain [97;98]%N; plain [32]%N; mkCompound [99;100;101]%N true false false false])) 3 = Ret (Some lines)
  /\ map (fun l => text_of (fc_compounds l)) lines = [[97;98]; [99;100;101]]%N.
Proof. eexists. split; vm_compute; reflexivity. Qed.

(** ** C26 *)

Lemma line_style_ret k kind : skin_ok k -> good_kind kind -> exists ls, line_style k kind = Ret ls.
Proof.
  intros Hk Hg. destruct kind; cbn [line_style]; eauto. destruct (Nat.leb_spec level MAX_HEADER_DEPTH); [|eauto].
  unfold good_kind in Hg. assert (level <> 0) by congruence. rewrite csub_ret by lia. rewrite bind_ret. apply idx_lt. rewrite Hk. lia.
Qed.

(** Wrapping a line panics only when its bullet doesn't fit (and on a bug of the caller: when it doesn't need to be wrapped) *)
Theorem C26_composite : forall u k fc width,
  (hard_wrap_composite u k fc width = Ret None <-> width < 3)
  /\ (3 <= width -> width < visible_length fc -> lead k (fc_kind fc) <= width -> exists lines, hard_wrap_composite u k fc width = Ret (Some lines)).
Proof.
  intros u k fc width. unfold hard_wrap_composite. rewrite kind_widths. split.
  - destruct (Nat.ltb_spec width 3) as [H|H]; [tauto|]. split; [|lia]. destruct (visible_length fc <=? width); [discriminate|]. cbv zeta.
    destruct (clean_cut _ _ _ _ _) as [[a b]|]; [discriminate|]. intros E. apply bind_Ret_inv in E as (m & _ & E).
    apply bind_Ret_inv in E as (ls & _ & E). discriminate.
  - intros H3 Hv Hl. destruct (Nat.ltb_spec width 3); [lia|]. destruct (Nat.leb_spec (visible_length fc) width); [lia|]. cbv zeta.
    destruct (clean_cut _ _ _ _ _) as [[a b]|]; [eauto|]. rewrite csub_ret, bind_ret by assumption.
    destruct (tokens_basic u (width - lead k (fc_kind fc)) (fc_compounds fc)) as (cs & HF & Es & _).
    destruct (@wrap_tokens_spec u k width _ cs _ HF (start_vcl u k (fc_kind fc) (fc_spacing fc))) as (first & others & d & E1 & _).
    rewrite E1, bind_ret. eauto.
Qed.
Print Assumptions C26_composite.

(** At widths of at least 3 there's no error; below there's one exactly when a line would have to be wrapped *)
Theorem C26_error_partial : forall u k lines width,
  (hard_wrap_lines u k lines width = Ret None -> width < 3 /\ exists fc, In (Normal fc) lines /\ width < visible_length fc)
  /\ (skin_ok k -> Forall good_line lines -> width < 3 ->
      (exists fc, In (Normal fc) lines /\ width < visible_length fc) -> hard_wrap_lines u k lines width = Ret None)
  /\ (skin_ok k -> Forall good_line lines -> width < 3 ->
      ~ (exists fc, In (Normal fc) lines /\ width < visible_length fc) -> hard_wrap_lines u k lines width = Ret (Some lines)).
Proof.
  intros u k lines width. induction lines as [|l lines (IH1 & IH2 & IH3)]; cbn [hard_wrap_lines].
  { split; [discriminate|]. split; [intros _ _ _ (fc & [] & _)|reflexivity]. }
  destruct l as [fc|cells|rule|].
  2-4: (split; [intros E; apply bind_Ret_inv in E as (o & E & E'); destruct o; [discriminate|]; destruct (IH1 E) as (H1 & fc & H2 & H3); split; [exact H1|]; exists fc; split; [right|]; assumption|];
    split; intros Hk Hg H3 He; (inversion Hg as [|? ? Hg1 Hg2]; subst);
    [rewrite IH2; [reflexivity|assumption..|]; destruct He as (fc & [E|Hin] & Hv); [discriminate|]; exists fc; split; assumption
    |rewrite IH3; [reflexivity|assumption..|]; intros (fc & Hin & Hv); apply He; exists fc; split; [right|]; assumption]).
  split; [|split].
  - intros E. apply bind_Ret_inv in E as (ls & El & E). destruct (margins_in ls (Some width)) as [lm rm] eqn:Em.
    destruct (Nat.leb_spec (visible_length fc + lm + rm) width).
    + apply bind_Ret_inv in E as (o & E & E'). destruct o; [discriminate|]. destruct (IH1 E) as (H1 & fc' & H2 & H3). split; [exact H1|]. exists fc'. split; [right|]; assumption.
    + apply bind_Ret_inv in E as (w & E1 & E). apply bind_Ret_inv in E as (w' & E2 & E). apply csub_inv in E1 as [H1 ->]. apply csub_inv in E2 as [H2 ->].
      apply bind_Ret_inv in E as (o & E & E'). destruct o as [fcs|].
      * apply bind_Ret_inv in E' as (o & E1 & E2). destruct o; [discriminate|]. destruct (IH1 E1) as (H1' & fc' & H2' & H3'). split; [exact H1'|]. exists fc'. split; [right|]; assumption.
      * apply C26_composite in E. cbn [margins_in] in Em. destruct (Nat.ltb_spec width (left_margin ls + right_margin ls + 3)); injection Em as <- <-; [|lia].
        split; [lia|]. exists fc. split; [left; reflexivity|lia].
  - intros Hk Hg H3 He. inversion Hg as [|? ? Hg1 Hg2]; subst. destruct (line_style_ret Hk Hg1) as (ls & ->). rewrite bind_ret. cbn [margins_in].
    destruct (Nat.ltb_spec width (left_margin ls + right_margin ls + 3)); [|lia].
    destruct (Nat.leb_spec (visible_length fc + 0 + 0) width).
    + rewrite IH2; [reflexivity|assumption..|]. destruct He as (fc' & [E|Hin] & Hv); [injection E as ->; lia|]. exists fc'. split; assumption.
    + rewrite !csub_ret, !bind_ret by lia. rewrite csub_ret, bind_ret by lia. destruct (C26_composite u k fc (width - 0 - 0)) as [[_ H'] _]. rewrite H' by lia. reflexivity.
  - intros Hk Hg H3 He. inversion Hg as [|? ? Hg1 Hg2]; subst. destruct (line_style_ret Hk Hg1) as (ls & ->). rewrite bind_ret. cbn [margins_in].
    destruct (Nat.ltb_spec width (left_margin ls + right_margin ls + 3)); [|lia].
    destruct (Nat.leb_spec (visible_length fc + 0 + 0) width).
    + rewrite IH3; [reflexivity|assumption..|]. intros (fc' & Hin & Hv). apply He. exists fc'. split; [right|]; assumption.
    + exfalso. apply He. exists fc. split; [left; reflexivity|lia].
Qed.
Print Assumptions C26_error_partial.

(** No panic when bullets fit between the margins *)
Theorem C26_no_panic_partial : forall u k lines width, skin_ok k -> Forall good_line lines -> 3 <= width ->
  (forall fc lm rm, In (Normal fc) lines -> margins_of k (fc_kind fc) width lm rm -> lead k (fc_kind fc) + lm + rm <= width) ->
  exists lines', hard_wrap_lines u k lines width = Ret (Some lines').
Proof.
  intros u k lines width Hk Hg H3 Hl. induction lines as [|l lines IH]; cbn [hard_wrap_lines]; [eauto|].
  inversion Hg as [|? ? Hg1 Hg2]; subst. destruct IH as (lines' & E); [assumption|intros; eapply Hl; [right|]; eassumption|].
  destruct l as [fc|cells|rule|]; try (rewrite E; eexists; reflexivity).
  destruct (line_style_ret Hk Hg1) as (ls & Els). rewrite Els, bind_ret. destruct (margins_in ls (Some width)) as [lm rm] eqn:Em.
  destruct (Nat.leb_spec (visible_length fc + lm + rm) width); [rewrite E; eexists; reflexivity|].
  assert (Hlead : lead k (fc_kind fc) + lm + rm <= width). { apply Hl; [left; reflexivity|]. exists ls. split; assumption. }
  assert (Hm : 3 + lm + rm <= width). { cbn [margins_in] in Em. destruct (Nat.ltb_spec width (left_margin ls + right_margin ls + 3)); injection Em as <- <-; lia. }
  rewrite !csub_ret, bind_ret by lia. rewrite csub_ret, bind_ret by lia.
  destruct (C26_composite u k fc (width - lm - rm)) as [_ H']. destruct H' as (fcs & ->); [lia..|]. rewrite bind_ret, E. eexists. reflexivity.
Qed.
Print Assumptions C26_no_panic_partial.

(** Lines are wrapped one by one, in the width between the margins; those which fit aren't changed, nor the table lines *)
Theorem C26_lines : forall u k lines width lines', hard_wrap_lines u k lines width = Ret (Some lines') -> exists groups,
  lines' = concat groups /\ Forall2 (fun l g => match l with
    | Normal fc => exists lm rm, margins_of k (fc_kind fc) width lm rm /\
        (visible_length fc + lm + rm <= width /\ g = [l]
         \/ width < visible_length fc + lm + rm /\ exists fcs, hard_wrap_composite u k fc (width - lm - rm) = Ret (Some fcs) /\ g = map Normal fcs)
    | _ => g = [l]
    end) lines groups.
Proof.
  intros u k lines width. induction lines as [|l lines IH]; cbn [hard_wrap_lines]; intros lines' E.
  { injection E as <-. exists []. split; [reflexivity|constructor]. }
  destruct l as [fc|cells|rule|].
  2-4: (apply bind_Ret_inv in E as (o & E & E'); destruct o as [r'|]; [|discriminate]; injection E' as <-; destruct (IH _ E) as (g & -> & HF);
     eexists ([_] :: g); split; [reflexivity|]; constructor; [reflexivity|exact HF]).
  apply bind_Ret_inv in E as (ls & El & E). destruct (margins_in ls (Some width)) as [lm rm] eqn:Em.
  destruct (Nat.leb_spec (visible_length fc + lm + rm) width).
  - apply bind_Ret_inv in E as (o & E & E'); destruct o as [r'|]; [|discriminate]; injection E' as <-; destruct (IH _ E) as (g & -> & HF).
    eexists ([_] :: g); split; [reflexivity|]; constructor; [|exact HF]. exists lm, rm. split; [exists ls; split; assumption|]. left. split; [assumption|reflexivity].
  - apply bind_Ret_inv in E as (w & E1 & E). apply bind_Ret_inv in E as (w' & E2 & E). apply csub_inv in E1 as [H1 ->]. apply csub_inv in E2 as [H2 ->].
    apply bind_Ret_inv in E as (o & E & E'). destruct o as [fcs|]; [|discriminate].
    apply bind_Ret_inv in E' as (o & E1 & E2). destruct o as [r'|]; [|discriminate]. injection E2 as <-. destruct (IH _ E1) as (g & -> & HF).
    exists (map Normal fcs :: g). split; [reflexivity|]. constructor; [|exact HF]. exists lm, rm. split; [exists ls; split; assumption|]. right. split; [assumption|].
    exists fcs. split; [assumption|reflexivity].
Qed.
Print Assumptions C26_lines.

Example C26_example : exists lines', hard_wrap_lines demo skin_default [Normal (item 0 [97;98;99;100]%N); HorizontalRule; Normal (para [97]%N)] 3 = Ret (Some lines')
  /\ length lines' = 6.
Proof. eexists. split; vm_compute; reflexivity. Qed.

(** Not an error below 3 when nothing has to be wrapped *)
Theorem C26_error_refuted : exists lines width, width < 3 /\ hard_wrap_lines demo skin_default lines width <> Ret None.
Proof. exists [], 2. split; [lia|]. discriminate. Qed.
(** A list item of depth 2 at width 3: the bullet and indentation don't fit, the subtraction overflows *)
Theorem C26_panic_refuted : exists fc, length_ok demo skin_default fc /\ hard_wrap_lines demo skin_default [Normal fc] 3 = Panic.
Proof. exists (item 2 [97;98]%N). split; reflexivity. Qed.
