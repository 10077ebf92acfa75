(** * Property C35, and the printed widths for C29, C30, C34, C66 and C69 *)
From Verif Require Import Base L_Base Demo M_Style M_Fit S_Fit L_Fit M_Wrap S_Wrap L_Wrap P_Wrap M_TblFit S_TblFit P_TblFit M_Text S_Text L_Text L_Text2 L_Text3 P_Text
  M_Fitter S_Fitter L_Fitter P_Fitter M_View P_View M_Render S_Render L_Render.
Set Implicit Arguments.
Open Scope nat_scope.

(** ** C35 *)

(** All that is written, char by char with the styles: see [line_drawn] and [composite_drawn] *)
Theorem C35_drawn : forall special k line width complete out,
  write_fmt_line special k line width complete = Ret out -> line_drawn special k line width complete (drawn out).
Proof. exact line_spec. Qed.
Print Assumptions C35_drawn.
(** Writing doesn't panic (header levels being at least 1, and depths less than 255) *)
Theorem C35_no_panic : forall special k line width complete, skin_ok k ->
  match line with Normal fc => drawn_kind (fc_kind fc) | TableRow cells => Forall (fun c => drawn_kind (fc_kind c)) cells | _ => True end ->
  exists out, write_fmt_line special k line width complete = Ret out.
Proof. exact line_ret. Qed.
Print Assumptions C35_no_panic.

(** A composite of this kind can't be drawn with this skin *)
Definition undrawable (k : MadSkin) (kind : CompositeKind) : Prop :=
  kind = KHeader 0 \/ exists depth, kind = KListItemFollowUp depth /\ indent_mode k = Block /\ 255 <= depth.
Lemma composite_panics special k fc outer wr wm : skin_ok k ->
  (write_fmt_composite special k fc outer wr wm = Panic <-> undrawable k (fc_kind fc)) /\ write_fmt_composite special k fc outer wr wm <> OutOfFuel.
Proof.
  intros Hk. unfold write_fmt_composite. destruct (list_eq_dec Nat.eq_dec (match fc_kind fc with KHeader l => [l] | _ => [1] end) [0]) as [E0|E0].
  - destruct (fc_kind fc) as [|[|l]| | | |] eqn:Ek; try discriminate. cbn. split; [|discriminate]. split; [left; reflexivity|reflexivity].
  - assert (Hg : good_kind (fc_kind fc)) by (intros E; rewrite E in E0; congruence). destruct (line_style_ret Hk Hg) as [ls ->]. rewrite bind_ret.
    assert (X : (mark_overflow k (fc_kind fc) = Panic <-> undrawable k (fc_kind fc)) /\ mark_overflow k (fc_kind fc) <> OutOfFuel).
    { unfold mark_overflow, undrawable. destruct (indent_mode k) eqn:Ei; [|destruct (fc_kind fc) eqn:Ek].
      all: try (split; [|discriminate]; split; [discriminate|]; intros [H|(d & H & H' & _)]; [|congruence]; exfalso; apply Hg; congruence).
      destruct (Nat.ltb_spec depth 255) as [L|L]; (split; [|discriminate]); split; try discriminate; try reflexivity.
      - intros [H|(d & H & _ & H')]; [discriminate|]. injection H as <-. lia.
      - intros _. right. eauto. }
    destruct (mark_overflow k (fc_kind fc)) as [[]| |]; rewrite ?bind_ret; cbn [bind];
      [|split; [|discriminate]; split; [intros _; apply X; reflexivity|reflexivity]|destruct X; congruence].
    destruct (if wm then _ else _), (fc_completions fc), (optional_completions _ _ _). split; [|discriminate]. destruct X as ((_ & X) & _). split; [discriminate|]. intros H. specialize (X H). discriminate.
Qed.
Lemma cells_panic special k cells : skin_ok k ->
  (write_cells special k cells = Panic <-> Exists (fun c => undrawable k (fc_kind c)) cells) /\ write_cells special k cells <> OutOfFuel.
Proof.
  intros Hk. induction cells as [|c cells (IH1 & IH2)]; cbn [write_cells].
  - split; [|discriminate]. split; [discriminate|]. intros H. inversion H.
  - rewrite Exists_cons. destruct (@composite_panics special k c None false false Hk) as (C1 & C2).
    destruct (write_fmt_composite special k c None false false) as [l| |]; [rewrite bind_ret|cbn [bind]|congruence].
    + destruct (write_cells special k cells) as [l'| |]; [rewrite bind_ret|cbn [bind]|congruence].
      * split; [|discriminate]. split; [discriminate|]. intros [H|H]; [apply C1 in H|apply IH1 in H]; discriminate.
      * split; [|discriminate]. split; [|reflexivity]. intros _. right. apply IH1. reflexivity.
    + split; [|discriminate]. split; [|reflexivity]. intros _. left. apply C1. reflexivity.
Qed.
(** The lines which can't be written are exactly those having a header level of 0, or a continued list item of the maximal depth with
    the block indentation *)
Theorem C35_panics : forall special k line width complete, skin_ok k ->
  (write_fmt_line special k line width complete = Panic <->
     match line with
     | Normal fc => undrawable k (fc_kind fc)
     | TableRow cells => Exists (fun c => undrawable k (fc_kind c)) cells
     | _ => False
     end)
  /\ write_fmt_line special k line width complete <> OutOfFuel.
Proof.
  intros special k line width complete Hk. destruct line as [fc|cells|r|]; cbn [write_fmt_line].
  - apply composite_panics, Hk.
  - destruct (optional_completions _ _ _) as [lp rp]. destruct (@cells_panic special k cells Hk) as (C1 & C2). destruct (write_cells special k cells) as [l| |]; [rewrite bind_ret|cbn [bind]; auto|congruence].
    split; [|discriminate]. split; [discriminate|]. intros H. apply C1 in H. discriminate.
  - destruct (optional_completions _ _ _) as [lp rp]. split; [|discriminate]. split; [discriminate|tauto].
  - split; [|discriminate]. split; [discriminate|tauto].
Qed.
Print Assumptions C35_panics.
(** A list item of depth 255 is wrapped, and its second line can't be written: [depth + 1] overflows *)
Example C35_deep : exists fc fcs, hard_wrap_composite demo skin_default fc 300 = Ret (Some fcs) /\ visible_length fc = visible_composite_length demo skin_default (KListItem 255) (fc_compounds fc)
  /\ map (fun c => match write_fmt_composite (fun _ => None) skin_default c None false true with Ret _ => true | _ => false end) fcs = [true; false].
Proof.
  exists (fc_from demo skin_default (mkMC (MListItem 255) [mkCompound (repeat 97%N 40) false false false false; mkCompound (repeat 98%N 12) true false false false])).
  eexists. split; [vm_compute; reflexivity|]. split; vm_compute; reflexivity.
Qed.

Lemma margins_unique ls wm o a b c d : margins_ok ls wm o a b -> margins_ok ls wm o c d -> a = c /\ b = d.
Proof.
  intros [H1 H2] [H3 H4]. destruct wm.
  - specialize (H2 eq_refl). specialize (H4 eq_refl). destruct o as [w|]; [|lia]. destruct (Nat.le_gt_cases (left_margin ls + right_margin ls + 3) w); lia.
  - specialize (H1 eq_refl). specialize (H3 eq_refl). lia.
Qed.
Definition not_empty_rule (l : FmtLine) : Prop := match l with TableRule r => widths r <> [] | _ => True end.
(** The left padding [lp], and what's on the right when it's completed *)
Lemma line_width u special k line width wr n out : narrow_chars u k -> same_widths u special -> line_in_room u k line -> not_empty_rule line ->
  needs k width line n -> write_fmt_line special k line width wr = Ret out ->
  exists align lp rp rm, rm <= n /\ shared_opt align n width lp rp /\ printed u out + (if wr then 0 else rp + rm) = lp + n + rp
   /\ align = match line with Normal fc => match line_style k (fc_kind fc) with Ret ls => ls_align ls | _ => ALeft end
              | HorizontalRule => ALeft | _ => ls_align (table k) end.
Proof.
  intros Hn Hs Hr Hne Hneed E. apply line_spec in E. unfold printed. destruct line as [fc|cells|r|]; cbn [line_drawn needs line_in_room] in *.
  - destruct Hneed as (ls & lm & rm & El & Hm & ->). destruct (composite_width Hn Hs Hr E) as (ls' & lm' & rm' & lp & rp & El' & Hm' & Ho & ->).
    rewrite El in El'. injection El' as <-. destruct (margins_unique Hm Hm') as [<- <-].
    exists (ls_align ls), lp, rp, rm. split; [lia|]. split; [exact Ho|]. split; [destruct wr; lia|]. rewrite El. reflexivity.
  - subst n. destruct E as (lp & rp & ds & Ho & HF & ->). exists (ls_align (table k)), lp, rp, 0. split; [lia|]. split; [exact Ho|]. split; [|reflexivity].
    pose proof (row_cells_width Hn Hs Hr HF) as Hw. assert (H32 : chw u 32%N = 1) by (narrow Hn).
    assert (Hv : chw u (vertical (table_border_chars k)) = 1) by (narrow Hn).
    rewrite !width_app, blanks_width, width_cons by exact H32. cbn [fst]. rewrite Hv. change (drawn_width u []) with 0.
    destruct wr; [rewrite blanks_width by exact H32|change (drawn_width u []) with 0]; lia.
  - subst n. destruct E as (lp & rp & Ho & ->). exists (ls_align (table k)), lp, rp, 0. split; [lia|]. split; [exact Ho|]. split; [|reflexivity].
    assert (H32 : chw u 32%N = 1) by (narrow Hn). rewrite !width_app, blanks_width by exact H32.
    assert (Hru : drawn_width u match position r with
      | Top => rule_drawn k (top_left_corner (table_border_chars k)) (top_junction (table_border_chars k)) (top_right_corner (table_border_chars k)) (widths r)
      | Other => rule_drawn k (left_junction (table_border_chars k)) (cross (table_border_chars k)) (right_junction (table_border_chars k)) (widths r)
      | Bottom => rule_drawn k (bottom_left_corner (table_border_chars k)) (bottom_junction (table_border_chars k)) (bottom_right_corner (table_border_chars k)) (widths r)
      end = table_line_width (widths r)).
    { destruct (position r); rewrite rule_width by (narrow Hn); cbn in Hne; destruct (widths r); congruence. }
    rewrite Hru. destruct wr; [rewrite blanks_width by exact H32|change (drawn_width u []) with 0]; lia.
  - subst n. assert (Hh : chw u (sc_char (horizontal_rule k)) = 1) by (narrow Hn). rewrite E. exists ALeft, 0, 0, 0. split; [lia|]. split.
    + destruct width as [w|]; [split; [lia|reflexivity]|split; reflexivity].
    + split; [|reflexivity]. destruct width as [w|]; [rewrite width_repeat by exact Hh|change (drawn_width u []) with 0]; destruct wr; lia.
Qed.

(** With the right completion, a line which fits takes exactly the width *)
Theorem C35_exact_partial : forall u special k line w n out, narrow_chars u k -> same_widths u special -> line_in_room u k line -> not_empty_rule line ->
  needs k (Some w) line n -> n <= w -> write_fmt_line special k line (Some w) true = Ret out -> printed u out = w.
Proof.
  intros u special k line w n out Hn Hs Hr Hne Hneed Hle E. destruct (@line_width _ _ _ _ _ _ _ _ Hn Hs Hr Hne Hneed E) as (al & lp & rp & rm & _ & [H _] & Hp & _). lia.
Qed.
Print Assumptions C35_exact_partial.
(** A line which doesn't fit isn't cut: it takes what it needs *)
Theorem C35_overflow : forall u special k line w n out, narrow_chars u k -> same_widths u special -> line_in_room u k line -> not_empty_rule line ->
  needs k (Some w) line n -> w <= n -> write_fmt_line special k line (Some w) true = Ret out -> printed u out = n.
Proof.
  intros u special k line w n out Hn Hs Hr Hne Hneed Hle E. destruct (@line_width _ _ _ _ _ _ _ _ Hn Hs Hr Hne Hneed E) as (al & lp & rp & rm & _ & [H _] & Hp & _). lia.
Qed.
Print Assumptions C35_overflow.
(** Without completion: not more than the width, and not more than what's needed when nothing has to be put before it *)
Theorem C35_not_completed : forall u special k line w n out, narrow_chars u k -> same_widths u special -> line_in_room u k line -> not_empty_rule line ->
  needs k (Some w) line n -> write_fmt_line special k line (Some w) false = Ret out ->
  printed u out <= Nat.max n w
  /\ ((forall fc ls, line = Normal fc -> line_style k (fc_kind fc) = Ret ls -> ls_align ls = ALeft \/ ls_align ls = Unspecified) ->
      ls_align (table k) = ALeft \/ ls_align (table k) = Unspecified -> printed u out <= n).
Proof.
  intros u special k line w n out Hn Hs Hr Hne Hneed E. destruct (@line_width _ _ _ _ _ _ _ _ Hn Hs Hr Hne Hneed E) as (al & lp & rp & rm & Hrm & [H Ha] & Hp & Eal).
  split; [lia|]. intros HN HT. assert (lp = 0); [|lia].
  assert (Hal : al = ALeft \/ al = Unspecified).
  { destruct line as [fc|cells|r|]; subst al; auto. destruct Hneed as (ls & ? & ? & El & _). rewrite El. eapply HN; [reflexivity|exact El]. }
  destruct Hal as [-> | ->]; exact Ha.
Qed.
Print Assumptions C35_not_completed.
(** Without a width, nothing but the content and its margins *)
Theorem C35_no_width : forall u special k line complete n out, narrow_chars u k -> same_widths u special -> line_in_room u k line -> not_empty_rule line ->
  needs k None line n -> write_fmt_line special k line None complete = Ret out ->
  printed u out <= n /\ (complete = true -> printed u out = n).
Proof.
  intros u special k line wr n out Hn Hs Hr Hne Hneed E. destruct (@line_width _ _ _ _ _ _ _ _ Hn Hs Hr Hne Hneed E) as (al & lp & rp & rm & Hrm & [-> ->] & Hp & _).
  split; [destruct wr; lia|]. intros ->. lia.
Qed.
Print Assumptions C35_no_width.

(** The texts of the default skin, on a width of 12, with and without completion, and lines too large *)
Definition no_special : Special := fun _ => None.
Definition para (s : str) : FmtLine := Normal (fc_from demo skin_default (mkMC MParagraph [plain s])).
Definition show (o : outcome (list cmd)) : option str := match o with Ret l => Some (out_text l) | _ => None end.
Lemma default_narrow : narrow_chars demo skin_default.
Proof. unfold narrow_chars. vm_compute skin_chars. repeat (apply Forall_cons; [reflexivity|]). constructor. Qed.
Lemma no_special_widths u : same_widths u no_special.
Proof. intros c r H. discriminate. Qed.
Example C35_example :
  needs skin_default (Some 6) (para [97; 20013]%N) 3 /\ line_in_room demo skin_default (para [97; 20013]%N)
  /\ show (write_fmt_line no_special skin_default (para [97; 20013]%N) (Some 6) true) = Some [97; 20013; 32; 32; 32]%N
  /\ show (write_fmt_line no_special skin_default (para [97; 20013]%N) (Some 6) false) = Some [97; 20013]%N
  /\ show (write_fmt_line no_special skin_default (Normal (item 1 [97]%N)) (Some 7) true) = Some [32; 8226; 32; 97; 32; 32; 32]%N
  /\ show (write_fmt_line no_special skin_default (TableRule (mkRule Top [2; 1] [Center; Center])) (Some 8) true)
     = Some [9484; 9472; 9472; 9516; 9472; 9488; 32; 32]%N.
Proof.
  split; [exists (paragraph skin_default), 0, 0; split; [reflexivity|]; split; [|reflexivity]; split; [discriminate|]; intros _; split; intros; cbn in *; lia|].
  split; [split; [vm_compute; lia|reflexivity]|]. vm_compute. auto.
Qed.

(** A rule without any column takes 2 columns, not the computed one: the line is too wide.
    It's what is made from a table in less than 5 columns. *)
Theorem C35_empty_rule_refuted : exists text t r out, from_text demo skin_default 1000 text (Some 4) = Ret t /\ In (TableRule r) (txt_lines t)
  /\ write_fmt_line no_special skin_default (TableRule r) (Some 4) true = Ret out /\ printed demo out = 5.
Proof.
  exists [rule [ALeft; ALeft]; row [1; 1]]. eexists. eexists. eexists. split; [vm_compute; reflexivity|]. split; [left; reflexivity|].
  split; [vm_compute; reflexivity|]. reflexivity.
Qed.
(** A special char replacing a compound of another width changes the width of the line *)
Theorem C35_special_refuted : exists special line out, line_in_room demo skin_default line /\ needs skin_default (Some 10) line 3
  /\ write_fmt_line special skin_default line (Some 10) true = Ret out /\ printed demo out = 8.
Proof.
  exists (fun _ => Some (sc_nude 42%N)), (para [97; 98; 99]%N). eexists. split; [split; [vm_compute; lia|reflexivity]|].
  split; [exists (paragraph skin_default), 0, 0; split; [reflexivity|]; split; [|reflexivity]; split; [discriminate|]; intros _; split; intros; cbn in *; lia|].
  split; [vm_compute; reflexivity|]. reflexivity.
Qed.
(** A spacing smaller than the content isn't respected, and the line is completed as if it was *)
Theorem C35_spacing_refuted : exists fc out, length_ok demo skin_default fc /\ room fc = 2
  /\ write_fmt_line no_special skin_default (Normal fc) (Some 10) true = Ret out /\ printed demo out = 13.
Proof.
  exists (mkFC KParagraph [plain [97; 98; 99; 100; 101]%N] 5 (Some (mkSpacing 2 ALeft))). eexists. split; [reflexivity|]. split; [reflexivity|].
  split; [vm_compute; reflexivity|]. reflexivity.
Qed.

(** ** Texts *)

(** A line which takes exactly the width when completed *)
Definition printable (u : unicode) (k : MadSkin) (width : nat) (l : FmtLine) : Prop :=
  line_in_room u k l /\ not_empty_rule l /\ forall n, needs k (Some width) l n -> n <= width.
Lemma needs_some k width l : skin_ok k -> good_line l -> exists n, needs k width l n.
Proof.
  intros Hk Hg. destruct l as [fc|cells|r|]; try (eexists; reflexivity). destruct (line_style_ret Hk Hg) as [ls E].
  pose proof (margins_spec ls true width) as Hm. destruct (margins_in ls width) as [lm rm]. cbn. eauto 10.
Qed.
Lemma printable_exact u special k width l out : narrow_chars u k -> same_widths u special -> printable u k width l ->
  display_line special k l (Some width) = Ret out -> printed u out = width.
Proof.
  intros Hn Hs (H1 & H2 & H3) E. assert (exists n, needs k (Some width) l n) as [n Hneed].
  { destruct l as [fc|cells|r|]; try (eexists; reflexivity). pose proof (line_spec _ _ _ _ _ E) as (ls & lm & rm & lp & rp & li & ri & El & Hm & _). cbn. eauto 10. }
  eapply C35_exact_partial; eauto.
Qed.

Lemma by_runs_out A (p : A -> bool) (R : list A -> list A -> Prop) (Q : A -> Prop) a b : by_runs p R a b ->
  (forall l, In l a -> p l = false -> Q l) -> (forall t t', incl t a -> t <> [] -> Forall (fun l => p l = true) t -> R t t' -> Forall Q t') -> Forall Q b.
Proof.
  induction 1 as [|l a b Hl _ IH|t t' a b Hn Ht Ha H _ IH]; intros H1 H2; [constructor|..].
  - constructor; [apply H1; [left; reflexivity|exact Hl]|]. apply IH; [intros; apply H1; [right|]; assumption|].
    intros t t' Hi. apply H2. intros x Hx. right. apply Hi, Hx.
  - apply Forall_app. split; [eapply H2; [|exact Hn|exact Ht|exact H]; apply incl_appl, incl_refl|].
    apply IH; [intros; apply H1; [apply in_or_app; right|]; assumption|]. intros t0 t0' Hi. apply H2. apply incl_appr, Hi.
Qed.

(** What the cells must be for a table to fit: a char, with what's written before it, fits in 3 columns *)
Definition good_cell (u : unicode) (k : MadSkin) (c : FmtComposite) : Prop :=
  length_ok u k c /\ forall ch, In ch (text_of (fc_compounds c)) -> chw u ch + lead k (next_kind (fc_kind c)) <= 3.
Lemma nth_in_repeat A (x : A) n i y : nth_error (repeat x n) i = Some y -> y = x.
Proof. intros H. apply nth_error_In in H. eapply repeat_spec. exact H. Qed.
Lemma map_eq_nth A B (f : A -> B) l l' i x : map f l = l' -> nth_error l i = Some x -> nth_error l' i = Some (f x).
Proof. intros <- H. apply map_nth_error, H. Qed.
Lemma replaces_ok u k ws cells g : additive u -> (forall c, In c cells -> length_ok u k c) ->
  replaces u k ws (TableRow cells) g -> forall cells' c, In (TableRow cells') g -> length cells' <= length ws -> In c cells' -> length_ok u k c.
Proof.
  intros Hu Hok (css & HF & _ & _ & Hcol & Hno) cells' c Hin Hlen' Hc. apply In_nth_error in Hc as (i & Ec).
  assert (Hlen : i < length ws) by (apply Nat.lt_le_trans with (length cells'); [apply nth_error_Some; congruence|exact Hlen']). pose proof (column_in _ _ _ Hin Ec) as Hc.
  destruct (nth_error cells i) as [c0|] eqn:E0.
  - assert (exists w, nth_error (combine cells ws) i = Some (c0, w)) as (w & Ecw).
    { clear - E0 Hlen. revert ws i E0 Hlen. induction cells as [|x cells IH]; intros [|y ws] [|i]; cbn; try discriminate; try lia.
      - intros E. injection E as ->. eauto.
      - intros E Hl. apply IH; [exact E|lia]. }
    destruct (nth_error css i) as [ls|] eqn:El.
    2:{ apply nth_error_None in El. rewrite <- (Forall2_len HF) in El. assert (i < length (combine cells ws)) by (apply nth_error_Some; congruence). lia. }
    assert (Hls : in_column u k w c0 ls).
    { clear - HF Ecw El. revert i Ecw El. induction HF as [|x y l l' H _ IH]; intros [|i]; cbn; try discriminate; [|apply IH]. intros E E'. injection E as ->. injection E' as ->. exact H. }
    destruct (Hcol i ls El) as (H1 & H2 & H3). apply In_nth_error in Hc as (j & Ej).
    pose proof (map_eq_nth _ _ _ H1 Ej) as J1. pose proof (map_eq_nth _ _ _ H2 Ej) as J2. pose proof (map_eq_nth _ _ _ H3 Ej) as J3.
    destruct (Nat.lt_ge_cases j (length ls)) as [L|L].
    + rewrite nth_error_app1 in J1, J2, J3 by (rewrite map_length; exact L). destruct (nth_error ls j) as [c'|] eqn:Ej'; [|apply nth_error_None in Ej'; lia].
      rewrite (map_nth_error fc_compounds _ _ Ej') in J1. rewrite (map_nth_error fc_kind _ _ Ej') in J2. rewrite (map_nth_error visible_length _ _ Ej') in J3.
      assert (length_ok u k c') as Hc'.
      { destruct Hls as [(_ & ->)|(_ & E)].
        - destruct j as [|[|j]]; cbn in Ej'; try discriminate. injection Ej' as <-. apply Hok. eapply nth_error_In. exact E0.
        - pose proof (C25_cached_length k c0 w Hu E) as HL. rewrite Forall_forall in HL. apply HL. eapply nth_error_In. exact Ej'. }
      unfold length_ok, shown in *. congruence.
    + rewrite nth_error_app2 in J1, J2, J3 by (rewrite map_length; exact L). rewrite map_length in J1, J2, J3. apply nth_in_repeat in J1, J2, J3.
      unfold length_ok, shown. rewrite J1, J2, J3. reflexivity.
  - apply nth_error_None in E0. specialize (Hno i E0). rewrite Forall_forall in Hno. destruct (Hno _ Hc) as (J1 & J2 & J3).
    unfold length_ok, shown. rewrite J1, J2, J3. reflexivity.
Qed.

Lemma columns_room ws cells : Forall2 (fun c w => exists a, fc_spacing c = Some (mkSpacing w a)) cells ws -> map room cells = ws.
Proof. induction 1 as [|c w cells ws (a & E) _ IH]; [reflexivity|]. cbn [map]. rewrite IH. f_equal. unfold room. rewrite E. reflexivity. Qed.

Lemma laid_printable u k width t t' : additive u -> 5 <= width -> Forall (fun l => is_table l = true) t -> laid_out u k width t t' -> 0 < table_cols t ->
  (forall cells c, In (TableRow cells) t -> In c cells -> good_cell u k c) -> Forall (printable u k width) t'.
Proof.
  intros Hu Hw Ht H H0 Hgood. destruct (laid_replaces Ht H H0 ltac:(lia)) as (ws & gs & Hlen & Hcols & -> & HR).
  destruct (laid_shape Ht H H0 ltac:(lia)) as (ws' & Hlen' & H3 & Hsum & Hcols' & _).
  assert (Hn0 : length ws <> 0).
  { rewrite Hlen. unfold shown_cols. destruct (Nat.leb_spec (4 * table_cols t + 1) width); [lia|].
    assert (4 / 4 <= (width - 1) / 4) by (apply Nat.div_le_mono; lia). change (4 / 4) with 1 in *. lia. }
  apply Forall_forall. intros l' Hin. apply in_concat in Hin as (g & Hg & Hin). destruct (Forall2_r_in HR _ Hg) as (l & Hl & Hr).
  assert (Hhc : has_columns ws l') by (rewrite Forall_forall in Hcols; apply Hcols, in_concat; eauto).
  assert (Hhc' : has_columns ws' l') by (rewrite Forall_forall in Hcols'; apply Hcols', in_concat; eauto).
  assert (ws' = ws).
  { destruct l' as [|cells|r|]; cbn [has_columns] in *; try tauto; [|destruct Hhc, Hhc'; congruence]. apply columns_room in Hhc, Hhc'. congruence. }
  subst ws'. destruct l' as [|cells|r|]; cbn [has_columns] in *; try tauto.
  - destruct l as [|cells0|ru|]; cbn [replaces] in Hr; try tauto.
    2:{ destruct Hr as (r' & -> & _). destruct Hin as [H'|[]]. discriminate. }
    split; [|split; [exact I|]].
    2:{ intros n Hneed. cbn [needs] in Hneed. rewrite (columns_room Hhc) in Hneed. unfold table_line_width in Hneed. lia. }
    cbn [line_in_room]. apply Forall_forall. intros c Hc. assert (Hok : length_ok u k c).
    { eapply (@replaces_ok u k ws cells0 g Hu); [|exact Hr|exact Hin| |exact Hc].
      - intros c0 Hc0. apply (Hgood cells0 c0 Hl Hc0).
      - rewrite (Forall2_len Hhc). lia. }
    split; [|exact Hok]. rewrite <- Hok. apply In_nth_error in Hc as (i & Ei).
    assert (exists w al, nth_error ws i = Some w /\ fc_spacing c = Some (mkSpacing w al)) as (w & al & Ew & Es).
    { clear - Hhc Ei. revert i Ei. induction Hhc as [|x w cells ws (al & E) _ IH]; intros [|i]; cbn; try discriminate; [|apply IH]. intros H. injection H as ->. eauto. }
    unfold room. rewrite Es. cbn [sp_width]. eapply (@replaces_fit u k ws cells0 g Hu H3); [|exact Hr|exact Hin|exact Ei|exact Ew].
    intros c0 Hc0. apply (Hgood cells0 c0 Hl Hc0).
  - destruct Hhc as [Hws _]. split; [exact I|]. split; [cbn; rewrite Hws; destruct ws; [cbn in Hn0; lia|discriminate]|].
    intros n Hneed. cbn [needs] in Hneed. rewrite Hws in Hneed. unfold table_line_width in Hneed. lia.
Qed.

(** The lines of a table laid out take exactly the width when displayed.
    Missing: tables without columns ([C35_empty_rule_refuted]), list items in cells ([C30_cells_fit_refuted]). *)
Theorem C30_printed_partial : forall u special k lines width out, additive u -> narrow_chars u k -> same_widths u special -> 5 <= width ->
  fix_all_tables u k lines width = Ret out ->
  (forall cells c, In (TableRow cells) lines -> In c cells -> good_cell u k c) ->
  by_runs is_table (fun t t' => table_cols t = 0 /\ t' = t
    \/ forall l drawn, In l t' -> display_line special k l (Some width) = Ret drawn -> printed u drawn = width) lines out.
Proof.
  intros u special k lines width out Hu Hn Hs Hw E Hgood. apply fix_all_iff in E. revert Hgood.
  induction E as [|l a b Hl _ IH|t t' a b Hne Ht Ha H _ IH]; intros Hgood; [constructor|..].
  - constructor; [exact Hl|]. apply IH. intros; eapply Hgood; [right|]; eassumption.
  - constructor; [exact Hne|exact Ht|exact Ha| |apply IH; intros; eapply Hgood; [apply in_or_app; right|]; eassumption].
    destruct (Nat.eq_dec (table_cols t) 0) as [E0|N0]; [left; split; [exact E0|]; destruct H as [_ ->|ws gs H0|ws gs H0]; [reflexivity|lia|lia]|right].
    assert (HF : Forall (printable u k width) t').
    { eapply laid_printable; [exact Hu|exact Hw|exact Ht|exact H|lia|]. intros; eapply Hgood; [apply in_or_app; left|]; eassumption. }
    rewrite Forall_forall in HF. intros l d Hin. apply printable_exact; auto.
Qed.
Print Assumptions C30_printed_partial.

(** A line of a source text which can be displayed in a width: no code line larger than the width, tables with columns,
    and enough width for the margins, what's before the text and a char *)
Definition fitting_source (u : unicode) (k : MadSkin) (width : nat) (l : MLine) : Prop :=
  match l with
  | MNormal c => forall lm rm, margins_of k (kind_of (mc_style c)) width lm rm ->
      (kind_of (mc_style c) = KCode -> sumw (chw u) (text_of (mc_compounds c)) + lm + rm <= width)
      /\ forall ch, In ch (text_of (mc_compounds c)) -> chw u ch + lead k (next_kind (kind_of (mc_style c))) + lm + rm <= width
  | MTableRow cells => cells <> []
      /\ forall c ch, In c cells -> In ch (text_of (mc_compounds c)) -> chw u ch + lead k (next_kind (kind_of (mc_style c))) <= 3
  | MTableRule als => als <> []
  | _ => True
  end.
Lemma text_printable u k um text width t : additive u -> 5 <= width ->
  from_text u k um text (Some width) = Ret t -> Forall (fitting_source u k width) text -> Forall (printable u k width) (txt_lines t).
Proof.
  intros Hu Hw E Hsrc. unfold from_text in E. apply bind_Ret_inv in E as (l1 & E1 & E).
  destruct (Nat.leb_spec 3 width); [|lia]. apply bind_Ret_inv in E as ([l3|] & E3 & E); [|discriminate]. injection E as <-. cbn [txt_lines].
  set (ok0 := fun fc => length_ok u k fc /\ forall lm rm, margins_of k (fc_kind fc) width lm rm ->
      (fc_kind fc = KCode -> visible_length fc + lm + rm <= width)
      /\ forall ch, In ch (text_of (fc_compounds fc)) -> chw u ch + lead k (next_kind (fc_kind fc)) + lm + rm <= width).
  set (ok1 := fun l => match l with Normal fc => ok0 fc /\ fc_spacing fc = None | l => printable u k width l end).
  assert (S1 : Forall ok1 l1).
  { apply fix_all_iff in E1. rewrite Forall_forall in Hsrc. eapply by_runs_out; [exact E1|..].
    - intros l Hl Hnt. apply in_map_iff in Hl as (m & <- & Hm). specialize (Hsrc _ Hm). destruct m as [c|cells|als| |]; try discriminate; cbn [line_from].
      + cbn [ok1]. split; [|reflexivity]. split; [apply C25_from_length, Hu|]. intros lm rm Hmar. cbn [fitting_source] in Hsrc. cbn [fc_from fc_kind fc_compounds] in *.
        destruct (Hsrc _ _ Hmar) as [Ha Hb]. split; [|exact Hb]. intros Hk. specialize (Ha Hk). pose proof (C25_from_length k c Hu) as Hlen.
        unfold length_ok, shown in Hlen. cbn [fc_from fc_kind fc_compounds] in Hlen. rewrite Hk in Hlen. cbn [lead] in Hlen. change (visible_length (fc_from u k c) + lm + rm <= width). lia.
      + split; [exact I|]. split; [exact I|]. cbn. lia.
      + split; [exact I|]. split; [exact I|]. cbn. lia.
    - intros t t' Hi Hne Ht Hlaid.
      assert (HP : Forall (printable u k width) t').
      { eapply laid_printable; [exact Hu|exact Hw|exact Ht|exact Hlaid|..].
        - destruct t as [|l t]; [congruence|]. pose proof (cols_asked_le (l :: t)) as Hle. inversion Hle as [|? ? Hle1 _]; subst.
          specialize (Hi l (or_introl eq_refl)). inversion Ht as [|? ? Htl _]; subst. apply in_map_iff in Hi as (m & <- & Hm). specialize (Hsrc _ Hm).
          destruct m as [c|cells|als| |]; try discriminate; cbn [line_from cols_asked fitting_source aligns] in *.
          + destruct Hsrc as [Hc _]. eapply Nat.lt_le_trans; [|exact Hle1]. rewrite map_length. destruct cells; [congruence|]. cbn. lia.
          + eapply Nat.lt_le_trans; [|exact Hle1]. destruct als; [congruence|]. cbn. lia.
        - intros cells c Hin Hc. specialize (Hi _ Hin). apply in_map_iff in Hi as (m & Em & Hm). specialize (Hsrc _ Hm).
          destruct m as [|cells0|als| |]; try discriminate. cbn [line_from] in Em. injection Em as <-. apply in_map_iff in Hc as (c0 & <- & Hc0).
          destruct Hsrc as [_ Hsrc]. split; [apply C25_from_length, Hu|]. intros ch Hch. apply (Hsrc c0 ch Hc0 Hch). }
      pose proof (laid_tables Ht Hlaid) as Ht'. rewrite Forall_forall in *. intros l Hl. specialize (HP l Hl). specialize (Ht' l Hl). destruct l; try discriminate; exact HP. }
  set (ok2 := fun l => match l with Normal fc => ok0 fc /\
      (fc_spacing fc = None /\ fc_kind fc <> KCode \/ fc_kind fc = KCode /\ printable u k width l) | l => printable u k width l end).
  assert (S2 : Forall ok2 (justify_blocks l1)).
  { rewrite Forall_forall in S1. eapply by_runs_out; [apply C34_justified|..].
    - intros l Hl Hc. specialize (S1 _ Hl). destruct l as [fc| | |]; try exact S1. destruct S1 as [Ha Hb]. split; [exact Ha|]. left. split; [exact Hb|].
      intros Hk. cbn in Hc. rewrite Hk in Hc. discriminate.
    - intros t t' Hi _ Ht (w & Hmax & (lw & Hlw & Ew) & HF). apply Forall_forall. intros l' Hl'. destruct (Forall2_r_in HF _ Hl') as (l & Hl & fc & -> & ->).
      rewrite Forall_forall in Ht. pose proof (Ht _ Hl) as Hcode. pose proof (S1 _ (Hi _ Hl)) as [Hok Hsp]. pose proof (Ht _ Hlw) as Hcodew. pose proof (S1 _ (Hi _ Hlw)) as Hokw.
      destruct lw as [fcw| | |]; try discriminate. destruct Hokw as [Hokw _]. cbn [code_length] in Ew. cbn in Hcode, Hcodew.
      destruct (fc_kind fc) eqn:Ek; try discriminate. destruct (fc_kind fcw) eqn:Ekw; try discriminate.
      cbn [ok2]. split.
      + destruct Hok as [H1 H2]. rewrite Ek in H2. split; [|exact H2]. unfold length_ok, shown in *. rewrite Ek in H1. exact H1.
      + right. split; [reflexivity|]. split; [|split; [exact I|]].
        * cbn [line_in_room]. destruct Hok as [H1 _]. assert (Hl1 : length_ok u k (mkFC KCode (fc_compounds fc) (visible_length fc) (Some (mkSpacing w ALeft)))).
          { unfold length_ok, shown in *. cbn [fc_kind fc_compounds visible_length]. rewrite Ek in H1. exact H1. }
          split; [|exact Hl1]. rewrite <- Hl1. unfold room. cbn [fc_spacing sp_width visible_length]. apply (Hmax _ Hl).
        * intros n (ls & lm & rm & El & Hm & ->). cbn [fc_kind] in El. unfold room. cbn [fc_spacing sp_width]. subst w.
          destruct Hokw as [_ Hokw]. assert (Hmw : margins_of k (fc_kind fcw) width lm rm).
          { exists ls. rewrite Ekw. split; [exact El|]. pose proof (margins_spec ls true (Some width)) as Hm'. cbv beta iota in Hm'. destruct (margins_in ls (Some width)) as [a b].
            destruct (margins_unique Hm Hm') as [-> ->]. reflexivity. }
          destruct (Hokw _ _ Hmw) as [Hx _]. rewrite Ekw in Hx. specialize (Hx eq_refl). lia. }
  assert (S3 : Forall (printable u k width) l3).
  { apply C26_lines in E3 as (gs & -> & HF). apply Forall_forall. intros l Hin. apply in_concat in Hin as (g & Hg & Hin). destruct (Forall2_r_in HF _ Hg) as (l0 & Hl0 & Hr).
    rewrite Forall_forall in S2. specialize (S2 _ Hl0). destruct l0 as [fc0| | |]; try (subst g; destruct Hin as [<-|[]]; exact S2).
    destruct S2 as [[Hok Hmar] Hcase]. destruct Hr as (lm & rm & Hm & Hr). destruct (Hmar _ _ Hm) as [Hcode Hch].
    destruct Hr as [(Hle & ->)|(Hgt & fcs & Ew & ->)].
    - destruct Hin as [<-|[]]. destruct Hcase as [[Hsp Hk]|[_ Hp]]; [|exact Hp]. split; [|split; [exact I|]].
      + split; [|exact Hok]. rewrite <- Hok. unfold room. rewrite Hsp. lia.
      + intros n (ls & lm' & rm' & El & Hm' & ->). unfold room. rewrite Hsp.
        assert (lm = lm' /\ rm = rm') as [<- <-]; [|lia]. destruct Hm as (ls2 & El2 & Em). rewrite El in El2. injection El2 as <-.
        pose proof (margins_spec ls true (Some width)) as Hm2. cbv beta iota in Hm2. rewrite Em in Hm2. eapply margins_unique; eassumption.
    - destruct Hcase as [[Hsp Hk]|[Hk _]]; [|specialize (Hcode Hk); lia].
      apply in_map_iff in Hin as (fc & <- & Hin). destruct (C25_kinds _ _ _ _ Ew) as (f & o & Eo & Hk1 & Hk2 & Hsp2). rewrite Forall_forall in Hsp2, Hk2.
      assert (Hline : line_style k (fc_kind fc) = line_style k (fc_kind fc0)).
      { rewrite Eo in Hin. destruct Hin as [<-|Hin]; [rewrite Hk1; reflexivity|]. rewrite (Hk2 _ Hin). destruct (fc_kind fc0); reflexivity. }
      pose proof (C25_cached_length k fc0 _ Hu Ew) as HL. rewrite Forall_forall in HL. specialize (HL _ Hin).
      assert (Hsh : Forall (fun l => shown u k l <= width - lm - rm) fcs).
      { apply C23_lines_fit_partial with (fc := fc0); [exact Hu|exact Ew|]. intros c Hc. specialize (Hch c Hc). lia. }
      rewrite Forall_forall in Hsh. specialize (Hsh _ Hin).
      assert (Hroom : room fc = visible_length fc) by (unfold room; rewrite (Hsp2 _ Hin), Hsp; reflexivity).
      split; [split; [rewrite Hroom, HL; lia|exact HL]|]. split; [exact I|].
      intros n (ls & lm' & rm' & El & Hm' & ->). rewrite Hroom, HL.
      assert (Hw3 : 3 <= width - lm - rm) by (apply wrap_inv in Ew; apply Ew).
      assert (lm = lm' /\ rm = rm') as [<- <-]; [|lia]. destruct Hm as (ls2 & El2 & Em). rewrite Hline, El2 in El. injection El as ->.
      pose proof (margins_spec ls true (Some width)) as Hm2. cbv beta iota in Hm2. rewrite Em in Hm2. eapply margins_unique; eassumption. }
  exact S3.
Qed.
(** Every line of a text formatted for a width takes exactly this width when displayed.
    Missing: sources which aren't [fitting_source], see the refutations. *)
Theorem C69_printed_partial : forall u special k usize_max text width t, additive u -> narrow_chars u k -> same_widths u special -> 5 <= width ->
  from_text u k usize_max text (Some width) = Ret t -> Forall (fitting_source u k width) text ->
  forall l out, In l (txt_lines t) -> display_line special k l (Some width) = Ret out -> printed u out = width.
Proof.
  intros u special k um text width t Hu Hn Hs Hw E Hsrc. pose proof (text_printable um Hu Hw E Hsrc) as H.
  rewrite Forall_forall in H. intros l out Hin. apply printable_exact; auto.
Qed.
Print Assumptions C69_printed_partial.
Local Notation letters := P_Text.letters.
(** A text with a title, a quote, a list item, a table, a rule and code; all the lines on 14 columns *)
Definition small_text : list MLine :=
  [MNormal (mkMC (MHeader 1) [plain (letters 5)]); prose 20; MNormal (mkMC MQuote [plain (letters 25)]);
   MNormal (mkMC (MListItem 1) [plain (letters 17); mkCompound [20013; 22269]%N true false false false]);
   rule [Center]; row [3; 9]; row [30; 1]; MHorizontalRule; MNormal (mkMC MCode [plain (letters 4)]); MNormal (mkMC MCode [plain (letters 9)])].
Example C69_printed_example : Forall (fitting_source demo skin_default 14) small_text
  /\ exists t, from_text demo skin_default 1000 small_text (Some 14) = Ret t /\ length (txt_lines t) = 19
  /\ map (fun l => match display_line no_special skin_default l (Some 14) with Ret o => printed demo o | _ => 0 end) (txt_lines t) = repeat 14 19.
Proof.
  split.
  - assert (Hm : forall kind lm rm, margins_of skin_default kind 14 lm rm -> lm = 0 /\ rm = 0).
    { intros kind lm rm (ls & El & Em). assert (Hz : left_margin ls = 0 /\ right_margin ls = 0).
      { destruct kind; cbn in El; try (injection El as <-; split; reflexivity).
        do 9 (destruct level as [|level]; [cbn in El; try discriminate; injection El as <-; split; reflexivity|]). cbn in El. injection El as <-. split; reflexivity. }
      unfold margins_in in Em. destruct (14 <? _); [injection Em as <- <-; split; reflexivity|]. injection Em as <- <-. exact Hz. }
    assert (HN : forall c, (kind_of (mc_style c) = KCode -> sumw (chw demo) (text_of (mc_compounds c)) <= 14) ->
      forallb (fun ch => chw demo ch + lead skin_default (next_kind (kind_of (mc_style c))) <=? 14) (text_of (mc_compounds c)) = true ->
      fitting_source demo skin_default 14 (MNormal c)).
    { intros c H1 H2 lm rm Hmm. destruct (Hm _ _ _ Hmm) as [-> ->]. split; [intros H; specialize (H1 H); lia|].
      intros ch Hin. rewrite forallb_forall in H2. specialize (H2 ch Hin). apply Nat.leb_le in H2. lia. }
    assert (HR : forall cells, cells <> [] ->
      forallb (fun c => forallb (fun ch => chw demo ch + lead skin_default (next_kind (kind_of (mc_style c))) <=? 3) (text_of (mc_compounds c))) cells = true ->
      fitting_source demo skin_default 14 (MTableRow cells)).
    { intros cells Hne H2. split; [exact Hne|]. intros c ch Hc Hin. rewrite forallb_forall in H2. specialize (H2 c Hc). rewrite forallb_forall in H2. apply Nat.leb_le, H2, Hin. }
    unfold small_text, prose, row, rule. repeat (apply Forall_cons; [|]); try apply Forall_nil.
    all: first [apply HN; [first [discriminate | intros _; vm_compute; lia]|vm_compute; reflexivity] | apply HR; [discriminate|vm_compute; reflexivity] | exact I | discriminate].
  - eexists. split; [vm_compute; reflexivity|]. split; vm_compute; reflexivity.
Qed.

(** ** C34: the lines of a code block are justified before being wrapped, so that the wrapped lines are wider than the width *)
Theorem C34_wrapped_refuted : exists text t l out, from_text demo skin_default 1000 text (Some 10) = Ret t /\ In l (txt_lines t)
  /\ display_line no_special skin_default l (Some 10) = Ret out /\ printed demo out = 25.
Proof.
  exists [MNormal (mkMC MCode [plain (letters 25)])]. eexists. eexists. eexists. split; [vm_compute; reflexivity|]. split; [left; reflexivity|].
  split; [vm_compute; reflexivity|]. reflexivity.
Qed.
(** The justified lines take the same number of columns, the one of the biggest, with any width allowing it *)
Theorem C34_printed : forall u special k lines width, narrow_chars u k -> same_widths u special ->
  (forall fc, In (Normal fc) lines -> length_ok u k fc) ->
  by_runs is_code (fun t t' => exists w, (forall l, In l t -> code_length l <= w) /\ (exists l, In l t /\ code_length l = w)
    /\ forall l out, In l t' -> write_fmt_line special k l width true = Ret out ->
       exists lm rm, margins_ok (code_block k) true width lm rm /\ printed u out = Nat.max (w + lm + rm) (match width with Some w' => w' | None => 0 end))
    lines (justify_blocks lines).
Proof.
  intros u special k lines width Hn Hs Hok. pose proof (C34_justified lines) as H. revert Hok. revert H. generalize (justify_blocks lines). intros out0.
  induction 1 as [|l a b Hl _ IH|t t' a b Hne Ht Ha H _ IH]; intros Hok; [constructor|..].
  - constructor; [exact Hl|]. apply IH. intros; apply Hok; right; assumption.
  - constructor; [exact Hne|exact Ht|exact Ha| |apply IH; intros; apply Hok; apply in_or_app; right; assumption].
    destruct H as (w & H1 & H2 & HF). exists w. split; [exact H1|]. split; [exact H2|]. intros l' out Hin E.
    destruct (Forall2_r_in HF _ Hin) as (l & Hl & fc & -> & ->). rewrite Forall_forall in Ht. specialize (Ht _ Hl). cbn in Ht.
    destruct (fc_kind fc) eqn:Ek; try discriminate. specialize (Hok fc ltac:(apply in_or_app; left; exact Hl)).
    pose proof (margins_spec (code_block k) true width) as Hm. cbv beta iota in Hm. destruct (margins_in (code_block k) width) as [lm rm].
    exists lm, rm. split; [exact Hm|].
    assert (Hneed : needs k width (Normal (mkFC KCode (fc_compounds fc) (visible_length fc) (Some (mkSpacing w ALeft)))) (w + lm + rm)).
    { exists (code_block k), lm, rm. split; [reflexivity|]. split; [exact Hm|reflexivity]. }
    assert (Hroom : line_in_room u k (Normal (mkFC KCode (fc_compounds fc) (visible_length fc) (Some (mkSpacing w ALeft))))).
    { specialize (H1 _ Hl). cbn [code_length] in H1. unfold length_ok, shown in Hok. rewrite Ek in Hok. split.
      - unfold shown, room. cbn [fc_kind fc_compounds fc_spacing sp_width]. lia.
      - exact Hok. }
    destruct width as [w'|].
    + destruct (Nat.le_gt_cases (w + lm + rm) w') as [L|L].
      * rewrite (@C35_exact_partial u special k _ w' _ out Hn Hs Hroom I Hneed L E). lia.
      * rewrite (@C35_overflow u special k _ w' _ out Hn Hs Hroom I Hneed ltac:(lia) E). lia.
    + destruct (@C35_no_width u special k _ true _ out Hn Hs Hroom I Hneed E) as [_ He]. rewrite (He eq_refl). lia.
Qed.
Print Assumptions C34_printed.

(** ** C29 *)

(** A composite written on a width takes this width, more its margins on the left *)
Theorem C29_printed_partial : forall u special k c width a out, additive u -> chw u 8230%N = 1 -> narrow_chars u k -> same_widths u special ->
  (lead k (kind_of (mc_style c)) = 0 \/ lead k (kind_of (mc_style c)) + 1 <= width) ->
  write_composite_fill u special k c width a = Ret out ->
  exists ls, line_style k (kind_of (mc_style c)) = Ret ls /\ printed u out = left_margin ls + width.
Proof.
  intros u special k c width a out Hu Hd Hn Hs Hl E. unfold write_composite_fill in E. apply bind_Ret_inv in E as (fc & Ef & E).
  destruct (@C29_filled_partial u _ width a k fc Hu Hd (C25_from_length k c Hu) Hl eq_refl Ef) as (Hok & Hk & Hw).
  unfold display_inline in E. apply composite_spec in E.
  assert (Hroom : in_room u k fc /\ room fc = width).
  { unfold in_room, room. destruct Hw as [(Hw & ->)|(Hw & ->)]; cbn [sp_width]; rewrite ?Hok; split; try split; auto; lia. }
  destruct Hroom as [Hroom Er]. destruct (composite_width Hn Hs Hroom E) as (ls & lm & rm & lp & rp & El & [_ Hm] & [-> ->] & Hp).
  exists ls. cbn [fc_from fc_kind] in Hk. rewrite Hk in El. split; [exact El|]. destruct (Hm eq_refl) as [-> _]. unfold printed. rewrite Hp. lia.
Qed.
Print Assumptions C29_printed_partial.
(** The number of columns which are written, in all cases: when there's no place for an ellipsis after the bullet or the quote mark,
    these ones are written anyway, with an ellipsis if the width isn't null. *)
Definition filled_columns (lead content width : nat) : nat :=
  if lead + content <=? width then width
  else if (lead =? 0) || (lead <? width) then width
  else if width =? 0 then lead else lead + 1.
Lemma no_spacing_width u special k fc d : narrow_chars u k -> same_widths u special -> fc_spacing fc = None ->
  composite_drawn special k fc None false true d ->
  exists ls, line_style k (fc_kind fc) = Ret ls /\ drawn_width u d = left_margin ls + shown u k fc.
Proof.
  intros Hn Hs H0 (ls & lm & rm & lp & rp & li & ri & H1 & [_ H2] & [-> ->] & H4 & ->). exists ls. split; [exact H1|].
  rewrite H0 in H4. destruct H4 as [-> ->]. destruct (H2 eq_refl) as [-> _]. assert (H32 : chw u 32%N = 1) by (narrow Hn).
  rewrite !width_app, !blanks_width, mark_width, (compounds_width _ _ _ Hs) by assumption. change (drawn_width u []) with 0. unfold shown. lia.
Qed.
Theorem C29_exact : forall u special k c width a out, additive u -> chw u 8230%N = 1 -> narrow_chars u k -> same_widths u special ->
  write_composite_fill u special k c width a = Ret out ->
  exists ls, line_style k (kind_of (mc_style c)) = Ret ls
  /\ printed u out = left_margin ls + filled_columns (lead k (kind_of (mc_style c))) (sumw (chw u) (text_of (mc_compounds c))) width.
Proof.
  intros u special k c width a out Hu Hd Hn Hs E. pose proof (C25_from_length k c Hu) as Hok. unfold length_ok, shown in Hok. cbn [fc_from fc_kind fc_compounds visible_length] in Hok.
  set (L := lead k (kind_of (mc_style c))) in *. set (C := sumw (chw u) (text_of (mc_compounds c))) in *.
  assert (Hcase : (L = 0 \/ L + 1 <= width) \/ (width <= L /\ L + C <= width) \/ (1 <= L /\ width <= L /\ width < L + C)) by lia. destruct Hcase as [Hl|[[Hl Hc]|(H1 & Hl & Hc)]].
  - destruct (@C29_printed_partial u special k c width a out Hu Hd Hn Hs Hl E) as (ls & El & ->). exists ls. split; [exact El|]. f_equal. unfold filled_columns.
    destruct (Nat.leb_spec (L + C) width); [reflexivity|]. destruct (Nat.eqb_spec L 0); [reflexivity|]. destruct (Nat.ltb_spec L width); [reflexivity|lia].
  - unfold write_composite_fill in E. apply bind_Ret_inv in E as (fc & Ef & E). unfold fill_width in Ef. apply bind_Ret_inv in Ef as (fc1 & Ef & E1). injection E1 as <-.
    unfold fit_width in Ef. rewrite C28_unchanged in Ef by (cbn [fc_from visible_length]; lia). injection Ef as <-.
    unfold extend_width in E. cbn [fc_from fc_spacing visible_length] in E. rewrite Hok in E. destruct (Nat.ltb_spec (L + C) width); [lia|].
    unfold display_inline in E. apply composite_spec in E. apply (@no_spacing_width u) in E; auto. destruct E as (ls & El & Ed). exists ls. split; [exact El|].
    unfold printed. rewrite Ed. unfold shown, filled_columns. cbn [fc_from fc_kind fc_compounds]. fold L C. destruct (Nat.leb_spec (L + C) width); lia.
  - unfold write_composite_fill in E. apply bind_Ret_inv in E as (fc & Ef & E). unfold fill_width in Ef. apply bind_Ret_inv in Ef as (fc1 & Ef & E1). injection E1 as <-.
    unfold fit_width in Ef. destruct (@C27_no_place u _ _ _ _ _ Hu Hd (C25_from_length k c Hu) Hl ltac:(cbn [fc_from visible_length]; lia) Ef) as (K1 & K2 & K3 & K4).
    cbn [fc_from fc_kind fc_spacing] in K1, K2. change (lead k (fc_kind (fc_from u k c))) with L in K4.
    assert (Hv : width <= visible_length fc1) by (rewrite K4; destruct (Nat.leb_spec width 1); lia).
    assert (Ee : extend_width fc1 width a = fc1).
    { unfold extend_width. rewrite K2. destruct (Nat.ltb_spec (visible_length fc1) width); [lia|reflexivity]. }
    rewrite Ee in E. unfold display_inline in E. apply composite_spec in E. apply (@no_spacing_width u) in E; auto. destruct E as (ls & El & Ed). rewrite K1 in El. exists ls. split; [exact El|].
    unfold printed. rewrite Ed. f_equal. unfold shown. rewrite K1, <- columns_styled. fold L. unfold filled_columns.
    destruct (Nat.leb_spec (L + C) width); [lia|]. destruct (Nat.eqb_spec L 0); [lia|]. destruct (Nat.ltb_spec L width); [lia|]. cbn [orb].
    destruct (width =? 0); rewrite K3; unfold columns, sumw; cbn; rewrite ?Hd; lia.
Qed.
Print Assumptions C29_exact.
(** The margin of the style is added to the width *)
Theorem C29_margin_refuted : exists k c width a out, narrow_chars demo k /\ write_composite_fill demo no_special k c width a = Ret out /\ printed demo out <> width.
Proof.
  exists (mkSkin (mkLS cs_default ALeft 4 4) (bold skin_default) (italic skin_default) (strikeout skin_default) (inline_code skin_default) (code_block skin_default)
    (headers skin_default) (scrollbar skin_default) (table skin_default) (bullet skin_default) (quote_mark skin_default) (horizontal_rule skin_default)
    (ellipsis skin_default) STANDARD_TBC Block), (mkMC MParagraph [plain (letters 30)]), 12, ALeft.
  eexists. split; [repeat constructor|]. split; [vm_compute; reflexivity|]. vm_compute. discriminate.
Qed.
Print Assumptions C29_margin_refuted.
(** The quote mark is written when there's no place for it *)
Theorem C29_mark_refuted : exists c width a out, write_composite_fill demo no_special skin_default c width a = Ret out /\ width < printed demo out.
Proof. exists (mkMC MQuote [plain (letters 30)]), 2, ALeft. eexists. split; [vm_compute; reflexivity|]. vm_compute. lia. Qed.
Print Assumptions C29_mark_refuted.
(** A composite displayed inline takes its length and its left margin *)
Theorem C35_inline : forall u special k c out, additive u -> narrow_chars u k -> same_widths u special ->
  write_composite u special k c = Ret out ->
  exists ls, line_style k (kind_of (mc_style c)) = Ret ls
  /\ printed u out = left_margin ls + lead k (kind_of (mc_style c)) + sumw (chw u) (text_of (mc_compounds c)).
Proof.
  intros u special k c out Hu Hn Hs E. unfold write_composite, display_inline in E. apply composite_spec in E.
  pose proof (C25_from_length k c Hu) as Hok.
  assert (Hroom : in_room u k (fc_from u k c)) by (split; [rewrite <- Hok; apply le_n|exact Hok]).
  destruct (composite_width Hn Hs Hroom E) as (ls & lm & rm & lp & rp & El & [_ Hm] & [-> ->] & Hp).
  exists ls. split; [exact El|]. destruct (Hm eq_refl) as [-> _]. unfold printed. rewrite Hp.
  change (room (fc_from u k c)) with (visible_length (fc_from u k c)). rewrite Hok. unfold shown. cbn [fc_from fc_kind fc_compounds]. lia.
Qed.
Print Assumptions C35_inline.
Example C29_printed_example : exists out, write_composite_fill demo no_special skin_default (mkMC MParagraph [plain (letters 30)]) 12 Unspecified = Ret out
  /\ printed demo out = 12 /\ exists out', write_composite_fill demo no_special skin_default (mkMC MQuote [plain (letters 3)]) 12 ARight = Ret out' /\ printed demo out' = 12
  /\ out_text out' = repeat 32%N 7 ++ [9616; 32; 97; 97; 97]%N.
Proof. eexists. split; [vm_compute; reflexivity|]. split; [reflexivity|]. eexists. split; [vm_compute; reflexivity|]. split; reflexivity. Qed.

(** ** Displaying whole texts *)

(** A text is displayed line by line, without completion, each one followed by a newline *)
Theorem C69_displayed : forall special k t, (forall l, In l (txt_lines t) -> exists o, write_fmt_line special k l (txt_width t) false = Ret o) ->
  exists outs, Forall2 (fun l o => write_fmt_line special k l (txt_width t) false = Ret o) (txt_lines t) outs
  /\ display_text special k t = Ret (flat_map (fun o => o ++ [Print [10%N]]) outs).
Proof.
  intros special k [lines width]. cbn [txt_lines txt_width]. unfold display_text. cbn [txt_lines txt_width]. induction lines as [|l lines IH]; intros H.
  - exists []. split; [constructor|reflexivity].
  - destruct (H l (or_introl eq_refl)) as [o Eo]. destruct IH as (outs & HF & E); [intros; apply H; right; assumption|].
    exists (o :: outs). split; [constructor; assumption|]. cbn [display_lines flat_map]. rewrite Eo, bind_ret, E, bind_ret. f_equal. rewrite <- app_assoc. reflexivity.
Qed.
Print Assumptions C69_displayed.

(** ** C66: the rows of a text view whose lines fit cover exactly the width of the area *)
Lemma move_plain u s : (forall c, In c s -> c <> 8%N /\ c <> 9%N) -> move u s = Z.of_nat (sumw (chw u) s).
Proof.
  induction s as [|c s IH]; intros H; [reflexivity|]. cbn [move]. rewrite IH by (intros; apply H; right; assumption). rewrite sumw_cons.
  unfold char_move. destruct (H c (or_introl eq_refl)) as [H8 H9]. destruct (N.eqb_spec c 8); [congruence|]. destruct (N.eqb_spec c 9); [congruence|]. lia.
Qed.
Lemma drawn_text l : map fst (drawn l) = out_text l.
Proof.
  induction l as [|c l IH]; [reflexivity|]. unfold drawn, out_text in *. cbn [flat_map]. rewrite map_app, IH. f_equal.
  destruct c; try reflexivity; apply map_fst_const.
Qed.
Theorem C66_text_row_partial : forall u special (v : TextView FmtLine) w sb j row,
  narrow_chars u (tv_skin v) -> same_widths u special ->
  (forall l, In l (tv_lines v) -> printable u (tv_skin v) (N.to_nat w) l) ->
  (forall l o, In l (tv_lines v) -> render_line special (tv_skin v) l (N.to_nat w) = Ret o -> Forall (fun c => c <> 8%N /\ c <> 9%N) (out_text o)) ->
  (forall s, In s [thumb (scrollbar (tv_skin v)); track (scrollbar (tv_skin v))] -> move u (out_text (sc_queue s)) = 1%Z) ->
  row_ok (render_line special (tv_skin v)) v w sb j row -> move u (out_text row) = Z.of_N (a_width (tv_area v)).
Proof.
  intros u special v w sb j row Hn Hs Hp Hc Hb Hrow. eapply C66_row_columns; [narrow Hn| |apply Hb; left; reflexivity|apply Hb; right; left; reflexivity|exact Hrow].
  intros l o Hin E. pose proof (Hc l o Hin E) as Hplain. rewrite Forall_forall in Hplain. rewrite move_plain by exact Hplain.
  pose proof (printable_exact Hn Hs (Hp l Hin) E) as Hw. unfold printed, drawn_width in Hw. rewrite drawn_text in Hw. rewrite Hw. lia.
Qed.
Print Assumptions C66_text_row_partial.
(** The computed length of a line of prose is what its text and mark take, but the other lines count for nothing *)
Theorem C35_visible_line_length : forall u k, additive u ->
  (forall c, visible_line_length u k (MNormal c) = lead k (kind_of (mc_style c)) + sumw (chw u) (text_of (mc_compounds c)))
  /\ forall l, (forall c, l <> MNormal c) -> visible_line_length u k l = 0.
Proof.
  intros u k Hu. split; [intros c; apply vcl_shown, Hu|]. intros [c| | | |] H; try reflexivity. destruct (H c eq_refl).
Qed.
Print Assumptions C35_visible_line_length.
