(** * What is written comes from the text or from the skin (C82) *)
From Verif Require Import Base L_Base M_Style M_Fit M_Wrap S_Wrap M_TblFit M_Text S_Text L_Text M_Fitter M_View M_Render S_Render M_Area S_Origin Demo S_Fit L_Fit S_Fitter L_Render P_Wrap P_Text P_Fitter P_Render S_Pen P_Pen.
Set Implicit Arguments.
Open Scope nat_scope.

(** ** Formatting *)

(** A composite made of chars of a composite of the text, with their flags *)
Definition comes (text : list MLine) (fc : FmtComposite) : Prop :=
  styled (fc_compounds fc) = []
  \/ exists mc, In mc (composites_of text) /\ (forall k, line_style k (fc_kind fc) = line_style k (kind_of (mc_style mc)))
       /\ incl (styled (fc_compounds fc)) (styled (mc_compounds mc)).
Definition line_comes (text : list MLine) (l : FmtLine) : Prop :=
  match l with Normal fc => comes text fc | TableRow cells => Forall (comes text) cells | _ => True end.
Lemma thinned_incl u {A} (s d : list (char * A)) : thinned u s d -> incl d s.
Proof. induction 1; intros x X; [exact X|destruct X as [<-|X]; [left; reflexivity|right; auto]|right; auto]. Qed.
Lemma wrapped_comes u k text fc w fcs : hard_wrap_composite u k fc w = Ret (Some fcs) -> comes text fc -> Forall (comes text) fcs.
Proof.
  intros E C. pose proof (C24_text_kept _ _ _ _ E) as T. apply thinned_incl in T. destruct (C25_kinds _ _ _ _ E) as (f & o & Eo & K1 & K2 & _).
  apply Forall_forall. intros l L. assert (Ls : forall k, line_style k (fc_kind l) = line_style k (fc_kind fc)).
  { rewrite Eo in L. destruct L as [<-|L]; [rewrite K1; reflexivity|]. rewrite Forall_forall in K2. rewrite (K2 _ L). intros k0. destruct (fc_kind fc); reflexivity. }
  assert (I : incl (styled (fc_compounds l)) (styled (fc_compounds fc))) by (intros x X; apply T, in_flat_map; exists l; split; assumption).
  destruct C as [C|(mc & M & Lm & Im)].
  - left. rewrite C in I. destruct (styled (fc_compounds l)) as [|x r]; [reflexivity|]. destruct (I x). left. reflexivity.
  - right. exists mc. split; [exact M|]. split; [intros k0; rewrite Ls; apply Lm|]. intros x X. apply Im, I, X.
Qed.
Lemma comes_ext text fc fc' : fc_compounds fc' = fc_compounds fc -> fc_kind fc' = fc_kind fc -> comes text fc -> comes text fc'.
Proof. unfold comes. intros -> ->. auto. Qed.
Lemma source_comes u k text : Forall (line_comes text) (map (line_from u k) text).
Proof.
  apply Forall_forall. intros l L. apply in_map_iff in L as (m & <- & M). 
  assert (C : forall c, In c (match m with MNormal c => [c] | MTableRow cells => cells | _ => [] end) -> comes text (fc_from u k c)).
  { intros c C. right. exists c. split; [apply in_flat_map; exists m; split; assumption|]. split; [reflexivity|apply incl_refl]. }
  destruct m; cbn [line_from line_comes]; auto. { apply C. left. reflexivity. }
  apply Forall_forall. intros fc F. apply in_map_iff in F as (c & <- & F). apply C, F.
Qed.
Lemma F2_length {A B} (R : A -> B -> Prop) l m : Forall2 R l m -> length l = length m.
Proof. induction 1; cbn; congruence. Qed.
Lemma F2_nth_l {A B} (R : A -> B -> Prop) l m i x : Forall2 R l m -> nth_error l i = Some x -> exists y, nth_error m i = Some y /\ R x y.
Proof. intros F. revert i. induction F as [|a b l m H F IH]; intros [|i] E; try discriminate; cbn in *; [injection E as <-; eauto|auto]. Qed.
Lemma nth_map {A B} (f : A -> B) l i x : nth_error l i = Some x -> nth_error (map f l) i = Some (f x).
Proof. intros E. rewrite nth_error_map, E. reflexivity. Qed.
Lemma in_column_cell i g cells c : In (TableRow cells) g -> nth_error cells i = Some c -> In c (column i g).
Proof. intros G C. apply in_flat_map. exists (TableRow cells). split; [exact G|]. rewrite C. left. reflexivity. Qed.
Lemma table_comes u k ws text l g : replaces u k ws l g -> Forall (has_columns ws) g -> line_comes text l -> Forall (line_comes text) g.
Proof.
  intros R W L. apply Forall_forall. intros l' G. destruct l as [|cells|r|]; cbn [replaces] in R; try contradiction.
  2: { destruct R as (r' & -> & _). destruct G as [<-|[]]. exact I. }
  destruct R as (css & F & _ & TR & C1 & C2). rewrite Forall_forall in TR. destruct (TR _ G) as (cells' & ->). cbn [line_comes] in *. apply Forall_forall. intros c C.
  apply In_nth_error in C as (i & C). pose proof (in_column_cell _ _ _ G C) as Col.
  rewrite Forall_forall in W. specialize (W _ G). cbn [has_columns] in W. assert (Wi : i < length ws).
  { rewrite <- (F2_length W). apply nth_error_Some. rewrite C. discriminate. }
  destruct (Nat.lt_ge_cases i (length cells)) as [Ic|Ic].
  - destruct (nth_error cells i) as [c0|] eqn:E0; [|apply nth_error_None in E0; lia]. destruct (nth_error ws i) as [w|] eqn:Ew; [|apply nth_error_None in Ew; lia].
    assert (Ecw : nth_error (combine cells ws) i = Some (c0, w)).
    { clear - E0 Ew. revert i ws E0 Ew. induction cells as [|x cells IH]; intros [|i] [|y ws] E0 Ew; try discriminate; cbn in *; [congruence|auto]. }
    destruct (@F2_nth_l _ _ _ _ _ i _ F Ecw) as (ls & Els & In_c). cbn [fst snd] in In_c. destruct (C1 i ls Els) as (Ec & Ek & _).
    assert (C0 : comes text c0) by (rewrite Forall_forall in L; apply L; eapply nth_error_In; eassumption).
    assert (LS : Forall (comes text) ls). { destruct In_c as [(_ & ->)|(_ & E)]; [constructor; [exact C0|constructor]|eapply wrapped_comes; eassumption]. }
    apply In_nth_error in Col as (j & Col). pose proof (nth_map fc_compounds _ _ Col) as X. pose proof (nth_map fc_kind _ _ Col) as Y. rewrite Ec in X. rewrite Ek in Y.
    destruct (Nat.lt_ge_cases j (length ls)) as [J|J].
    + rewrite nth_error_app1 in X, Y by (rewrite map_length; exact J). rewrite nth_error_map in X, Y. destruct (nth_error ls j) as [x|] eqn:Ej; [|discriminate]. cbn in X, Y.
      injection X as X. injection Y as Y. rewrite Forall_forall in LS. apply (comes_ext (fc := x)); auto. apply LS. eapply nth_error_In; eassumption.
    + rewrite nth_error_app2 in X by (rewrite map_length; exact J). apply nth_error_In, repeat_spec in X. left. rewrite X. reflexivity.
  - specialize (C2 i Ic). rewrite Forall_forall in C2. destruct (C2 _ Col) as (X & _). left. rewrite X. reflexivity.
Qed.
Lemma tables_come u k lines w out text : fix_all_tables u k lines w = Ret out -> Forall (line_comes text) lines -> Forall (line_comes text) out.
Proof.
  intros E L. destruct w as [|w].
  { assert (out = lines); [|subst; exact L]. unfold fix_all_tables in E. clear L. revert E. generalize (rev (find_tables lines)). intros ts. revert lines.
    induction ts as [|t ts IH]; intros lines E; cbn [fold_left] in E; [congruence|]. cbn [bind] in E. unfold fix_columns in E at 2. rewrite Bool.orb_true_r in E. apply IH, E. }
  apply C31_replaced in E; [|lia]. induction E as [|l a b Hl _ IH|t t' a b Hn Ht Ha R _ IH].
  - constructor.
  - inversion L; subst. constructor; auto.
  - apply Forall_app in L as (L1 & L2). apply Forall_app. split; [|auto]. clear IH L2 Ha Hn Ht. destruct R as [(_ & ->)|(ws & gs & _ & W & -> & F)]; [exact L1|].
    revert W L1. induction F as [|l g t gs R F IH]; intros W L1; cbn [concat] in *; [constructor|]. apply Forall_app in W as (W1 & W2). inversion L1; subst.
    apply Forall_app. split; [eapply table_comes; eassumption|auto].
Qed.
Lemma justified_come text lines : Forall (line_comes text) lines -> Forall (line_comes text) (justify_blocks lines).
Proof.
  pose proof (C34_justified lines) as H. revert H. generalize (justify_blocks lines). intros l2 H L. induction H as [|l a b Hl _ IH|t t' a b Hn Ht Ha R _ IH].
  - constructor.
  - inversion L; subst. constructor; auto.
  - apply Forall_app in L as (L1 & L2). apply Forall_app. split; [|auto]. destruct R as (w & _ & _ & F). clear - F L1. induction F as [|l l' t t' (fc & -> & ->) F IH]; [constructor|].
    inversion L1; subst. constructor; auto.
Qed.
Lemma formatted_come u k um text width t : from_text u k um text width = Ret t -> Forall (line_comes text) (txt_lines t).
Proof.
  unfold from_text. intros E. apply bind_Ret_inv in E as (l1 & E1 & E). apply tables_come with (text := text) in E1; [|apply source_comes]. apply justified_come in E1.
  destruct width as [w|]; [|injection E as <-; exact E1]. destruct (3 <=? w); [|injection E as <-; exact E1].
  apply bind_Ret_inv in E as ([l3|] & E3 & E); [|discriminate]. injection E as <-. cbn [txt_lines]. apply C26_lines in E3 as (gs & -> & F). clear - F E1.
  induction F as [|l g ls gs R F IH]; [constructor|]. inversion E1; subst. cbn [concat]. apply Forall_app. split; [|auto].
  destruct l as [fc| | |]; try (subst g; constructor; [assumption|constructor]). destruct R as (lm & rm & _ & [(_ & ->)|(_ & fcs & E & ->)]); [constructor; [assumption|constructor]|].
  eapply wrapped_comes in E; [|eassumption]. apply Forall_forall. intros x X. apply in_map_iff in X as (fc' & <- & X). rewrite Forall_forall in E. apply E, X.
Qed.

(** ** Drawing *)

Section Drawing.
  Context (special : Special) (k : MadSkin) (text : list MLine).
  Lemma blanks_origin kind ls n : line_style k kind = Ret ls -> Forall (origin special k text) (blanks (ls_cs ls) n).
  Proof using. intros E. apply Forall_forall. intros x X. apply repeat_spec in X. subst x. right. left. eapply os_space, E. Qed.
  Lemma paragraph_origin n : Forall (origin special k text) (blanks (ls_cs (paragraph k)) n).
  Proof using. apply (blanks_origin KParagraph). reflexivity. Qed.
  Lemma mark_origin kind : Forall (origin special k text) (mark_drawn k kind).
  Proof using.
    unfold mark_drawn. destruct kind; try constructor.
    - apply Forall_app. split; [apply paragraph_origin|]. constructor; [right; left; apply os_bullet|apply paragraph_origin].
    - destruct (indent_mode k); [constructor|apply paragraph_origin].
    - right. left. apply os_quote.
    - apply paragraph_origin.
  Qed.
  Lemma compounds_origin fc ls : comes text fc -> line_style k (fc_kind fc) = Ret ls -> Forall (origin special k text) (flat_map (compound_drawn special k ls) (fc_compounds fc)).
  Proof using.
    intros C E. apply Forall_forall. intros x X. apply in_flat_map in X as (c & Hc & X). unfold compound_drawn in X. destruct (special c) as [r|] eqn:Es.
    { destruct X as [<-|[]]. right. right. exists c, r. auto. }
    apply in_map_iff in X as (ch & <- & Hch). left. assert (Hst : In (ch, flags c) (styled (fc_compounds fc))).
    { apply in_flat_map. exists c. split; [exact Hc|]. apply in_map_iff. exists ch. auto. }
    destruct C as [C|(mc & M & L & I)]; [rewrite C in Hst; destruct Hst|]. exists mc, (flags c), ls. split; [exact M|]. split; [apply I, Hst|]. split; [rewrite <- L; exact E|].
    cbn [fst snd]. unfold compound_style, text_style, flags. destruct (is_ellipsis c) eqn:El; [right|left; reflexivity]. split; [|reflexivity].
    unfold is_ellipsis in El. destruct (src c) as [|a [|]]; try discriminate. destruct Hch as [<-|[]]. apply N.eqb_eq, El.
  Qed.
  Lemma composite_origin fc w r m d : composite_drawn special k fc w r m d -> comes text fc -> Forall (origin special k text) d.
  Proof using.
    intros (ls & lm & rm & lp & rp & li & ri & E & _ & _ & _ & ->) C.
    repeat (apply Forall_app; split); auto using paragraph_origin, mark_origin, compounds_origin; try (eapply blanks_origin; eassumption). destruct r; [apply paragraph_origin|constructor].
  Qed.
  Lemma border_origin c : In c (border_chars (table_border_chars k)) -> origin special k text (c, ls_cs (table k)).
  Proof using. intros C. right. left. apply os_border, C. Qed.
  Lemma rule_origin a b c ws : In a (border_chars (table_border_chars k)) -> In b (border_chars (table_border_chars k)) -> In c (border_chars (table_border_chars k)) ->
    Forall (origin special k text) (rule_drawn k a b c ws).
  Proof using.
    intros A B C. assert (H : forall n, Forall (origin special k text) (repeat (horizontal (table_border_chars k), ls_cs (table k)) n)).
    { intros n. apply Forall_forall. intros x X. apply repeat_spec in X. subst x. apply border_origin. left. reflexivity. }
    unfold rule_drawn. constructor; [apply border_origin, A|]. apply Forall_app. split; [|constructor; [apply border_origin, C|constructor]].
    destruct ws as [|w ws]; [constructor|]. apply Forall_app. split; [apply H|]. induction ws; [constructor|]. cbn [flat_map]. constructor; [apply border_origin, B|]. apply Forall_app. auto.
  Qed.
  Lemma line_origin line w r out : write_fmt_line special k line w r = Ret out -> line_comes text line -> Forall (origin special k text) (drawn out).
  Proof using.
    intros E C. apply C35_drawn in E. destruct line as [fc|cells|rule|]; cbn [line_drawn line_comes] in *.
    - eapply composite_origin; eassumption.
    - destruct E as (lp & rp & ds & _ & F & ->). apply Forall_app. split; [apply paragraph_origin|].
      assert (V : origin special k text (vertical (table_border_chars k), ls_cs (table k))) by (apply border_origin; right; left; reflexivity).
      apply Forall_app. split; [|constructor; [exact V|destruct r; [apply paragraph_origin|constructor]]].
      clear - F C V. induction F as [|c d cells ds D F IH]; [constructor|]. inversion C; subst. cbn [flat_map]. constructor; [exact V|]. apply Forall_app. split; [|auto]. eapply composite_origin; eassumption.
    - destruct E as (lp & rp & _ & ->). apply Forall_app. split; [apply paragraph_origin|]. apply Forall_app. split; [|destruct r; [apply paragraph_origin|constructor]].
      destruct (position rule); apply rule_origin; cbn; tauto.
    - rewrite E. destruct w; [|constructor]. apply Forall_forall. intros x X. apply repeat_spec in X. subst x. right. left. apply os_rule.
  Qed.
End Drawing.
Lemma drawn_app a b : drawn (a ++ b) = drawn a ++ drawn b.
Proof. apply flat_map_app. Qed.
Lemma lines_origin special k text w : forall lines out, display_lines special k lines w = Ret out -> Forall (line_comes text) lines ->
  Forall (fun x => origin special k text x \/ x = (10%N, cs_default)) (drawn out).
Proof.
  induction lines as [|l r IH]; intros out E C; cbn [display_lines] in E; [injection E as <-; constructor|].
  apply bind_Ret_inv in E as (a & Ea & E). apply bind_Ret_inv in E as (b & Eb & E). injection E as <-. inversion C; subst.
  rewrite drawn_app. apply Forall_app. split; [|constructor; [right; reflexivity|apply IH; assumption]]. apply line_origin with (text := text) in Ea; [|assumption]. revert Ea. apply Forall_impl. auto.
Qed.
Lemma filling_origin special k text n out : filling_queue_styled SPACE_FILLING (ls_cs (paragraph k)) n = Ret out -> Forall (origin special k text) (drawn out).
Proof.
  intros E. destruct (filling_styled_spec 32%N (ls_cs (paragraph k)) n) as (l & E' & T & F). unfold SPACE_FILLING, c_space in E. rewrite E in E'. injection E' as <-.
  apply Forall_forall. intros x X. assert (H : In (fst x) (out_text out) /\ snd x = ls_cs (paragraph k)).
  { apply in_flat_map in X as (c & C & X). destruct (F _ C) as (s & ->). apply in_map_iff in X as (ch & <- & X). split; [|reflexivity]. apply in_flat_map. exists (Styled (ls_cs (paragraph k)) s). auto. }
  destruct H as (H & ?). rewrite T in H. apply repeat_spec in H. destruct x as (a & b). cbn in *. subst. right. left. apply os_space with (kind := KParagraph). reflexivity.
Qed.
(** What a scrollbar is made of *)
Definition of_scrollbar (k : MadSkin) (x : char * CStyle) : Prop := x = drawn_char (thumb (scrollbar k)) \/ x = drawn_char (track (scrollbar k)).
Lemma rows_origin special k text a s b w sb ls : forall rows lines j out, tv_write_rows (render_line special k) (mkTV a ls k s b) w sb lines j rows = Ret out -> Forall (line_comes text) lines ->
  Forall (fun x => origin special k text x \/ sb <> None /\ of_scrollbar k x) (drawn out).
Proof.
  induction rows as [|rows IH]; intros lines j out E C; cbn [tv_write_rows tv_area tv_skin] in E; [injection E as <-; constructor|].
  apply bind_Ret_inv in E as (y & _ & E). apply bind_Ret_inv in E as ((content & rest) & Ec & E). apply bind_Ret_inv in E as (others & Eo & E). injection E as <-.
  assert (H : Forall (origin special k text) (drawn content) /\ Forall (line_comes text) rest).
  { destruct lines as [|l r]; apply bind_Ret_inv in Ec as (c & Ec & E); injection E as <- <-.
    - split; [eapply filling_origin, Ec|constructor].
    - inversion C; subst. split; [eapply line_origin; [apply Ec|assumption]|assumption]. }
  destruct H as (Hc & Hr). change (drawn (MoveTo (a_left a) y :: ?l)) with (drawn l). rewrite !drawn_app. apply Forall_app. split; [revert Hc; apply Forall_impl; auto|]. apply Forall_app. split; [|eapply IH; eassumption].
  destruct sb as [(p & q)|]; [|constructor]. destruct (_ && _)%bool; (constructor; [right; split; [discriminate|]; unfold of_scrollbar; auto|constructor]).
Qed.
Lemma skipn_Forall {A} (P : A -> Prop) n l : Forall P l -> Forall P (skipn n l).
Proof. intros F. rewrite <- (firstn_skipn n l) in F. apply Forall_app in F. apply F. Qed.
Lemma view_origin special k text a ls s b out : tv_write_on (render_line special k) (mkTV a ls k s b) = Ret out -> Forall (line_comes text) ls ->
  Forall (fun x => origin special k text x \/ b = true /\ of_scrollbar k x) (drawn out).
Proof.
  unfold tv_write_on. intros E C. apply bind_Ret_inv in E as (sb & Es & E). apply bind_Ret_inv in E as (w & _ & E). cbn [tv_lines scroll tv_area] in E.
  apply rows_origin with (text := text) in E; [|apply skipn_Forall, C]. revert E. apply Forall_impl. intros x [X|(N & X)]; [auto|]. right. split; [|exact X].
  destruct b; [reflexivity|]. unfold tv_scrollbar in Es. cbn in Es. congruence.
Qed.

(** ** The theorems *)

(** All what is printed comes from the text or from the skin, but the ends of the lines *)
Theorem C82_printed : forall u special k usize_max text size out, print_text u special k usize_max text size = Ret out ->
  Forall (fun x => origin special k text x \/ x = (10%N, cs_default)) (drawn out).
Proof.
  intros u special k um text size out E. unfold print_text, term_text in E. apply bind_Ret_inv in E as (t & Et & E). destruct (terminal_size size) as (w & h).
  eapply lines_origin; [exact E|]. eapply formatted_come, Et.
Qed.
Print Assumptions C82_printed.
(** All what is drawn in an area too; the chars of the scrollbar, if there's one *)
Theorem C82_area : forall u special k usize_max text a out,
  (write_in_area_on u special k usize_max text a = Ret out -> Forall (origin special k text) (drawn out))
  /\ forall scroll, mad_write_on u special k usize_max text a scroll = Ret out -> Forall (fun x => origin special k text x \/ of_scrollbar k x) (drawn out).
Proof.
  intros u special k um text a out. unfold write_in_area_on, mad_write_on, area_text.
  split; [intros E|intros scroll E]; apply bind_Ret_inv in E as (t & Et & E); apply bind_Ret_inv in Et as (w & _ & Et); apply formatted_come in Et;
    apply view_origin with (text := text) in E; try exact Et; revert E; apply Forall_impl; intros x [X|(N & X)]; auto. discriminate.
Qed.
Print Assumptions C82_area.
(** An inline snippet *)
Theorem C82_inline : forall u special k c out, write_composite u special k c = Ret out -> Forall (origin special k [MNormal c]) (drawn out).
Proof.
  intros u special k c out E. unfold write_composite, display_inline in E. apply composite_spec in E. eapply composite_origin; [exact E|].
  right. exists c. split; [left; reflexivity|]. split; [reflexivity|apply incl_refl].
Qed.
Print Assumptions C82_inline.
(** A snippet cut to fill a width: as if it had an ellipsis, without style *)
Definition with_dots (c : MComposite) : MComposite := mkMC (mc_style c) (mc_compounds c ++ [mkCompound [c_ellipsis] false false false false]).
Lemma elided_incl s d : elided s d -> incl d (s ++ [dots]).
Proof.
  induction 1 as [|c s d _ IH|g s d _ IH]; intros x X; [destruct X| |]; (destruct X as [<-|X]; [|apply IH in X]).
  - left. reflexivity.
  - right. exact X.
  - apply in_app_iff. right. left. reflexivity.
  - rewrite <- app_assoc. apply in_app_iff. right. exact X.
Qed.
Lemma fit_comes u f c max k fc' : additive u -> chw u 8230%N = 1 -> fit u f (fc_from u k c) max k = Ret fc' -> comes [MNormal (with_dots c)] fc'.
Proof.
  intros A D E. destruct max as [|max].
  - unfold fit in E. destruct (_ <=? 0); injection E as <-; [|left; reflexivity]. right. exists (with_dots c). split; [left; reflexivity|]. split; [reflexivity|].
    cbn [fc_from fc_compounds with_dots mc_compounds]. unfold styled. rewrite flat_map_app. apply incl_appl, incl_refl.
  - assert (K : fc_kind fc' = kind_of (mc_style c)).
    { clear A D. revert E. unfold fit. destruct (_ <=? _); [intros E; injection E as <-; reflexivity|]. destruct (_ =? _); [intros E; injection E as <-; reflexivity|].
      destruct (_ =? _); [intros E; injection E as <-; reflexivity|]. intros E. apply bind_Ret_inv in E as ((cs & ex) & _ & E). apply bind_Ret_inv in E as ((cs1 & ex1) & _ & E).
      destruct (_ =? _); [injection E as <-; reflexivity|]. destruct (excesses _ _) as (a & b). apply bind_Ret_inv in E as (cs2 & _ & E). apply bind_Ret_inv in E as (cs3 & _ & E). injection E as <-. reflexivity. }
    apply C28_elided in E; auto; [|lia]. apply elided_incl in E. right. exists (with_dots c). split; [left; reflexivity|]. split; [rewrite K; reflexivity|].
    cbn [with_dots mc_compounds]. unfold styled at 2. rewrite flat_map_app. exact E.
Qed.
Theorem C82_filled : forall u special k c width a out, additive u -> chw u 8230%N = 1 -> write_composite_fill u special k c width a = Ret out ->
  Forall (origin special k [MNormal (with_dots c)]) (drawn out).
Proof.
  intros u special k c width a out A D E. unfold write_composite_fill in E. apply bind_Ret_inv in E as (fc & Ef & E). apply composite_spec in E. eapply composite_origin; [exact E|].
  unfold fill_width in Ef. apply bind_Ret_inv in Ef as (fc1 & Ef & E1). injection E1 as <-. apply fit_comes in Ef; auto. revert Ef. apply comes_ext; unfold extend_width; destruct (fc_spacing fc1); try reflexivity;
  destruct (_ <? _); reflexivity.
Qed.
Print Assumptions C82_filled.

(** ** Skins without style *)

Lemma plain_line k kind ls : plain_skin k -> line_style k kind = Ret ls -> ls_cs ls = cs_default.
Proof.
  intros P E. destruct kind; cbn [line_style] in E; try (injection E as <-; apply P; fail).
  destruct (_ <=? _); [|injection E as <-; apply P]. apply bind_Ret_inv in E as (i & _ & E). unfold idx in E. destruct (nth_error _ _) as [l|] eqn:N; [|discriminate].
  injection E as <-. pose proof (pl_headers P) as F. rewrite Forall_forall in F. apply F. eapply nth_error_In, N.
Qed.
Lemma plain_text k ls f : plain_skin k -> ls_cs ls = cs_default -> text_style k ls f = cs_default.
Proof.
  intros P L. destruct f as (((b & i) & c) & s). unfold text_style, compound_style. cbn [is_ellipsis src c_bold c_italic c_code c_strikeout].
  rewrite L, (pl_bold P), (pl_italic P), (pl_strikeout P), (pl_code P). destruct b, i, c, s; reflexivity.
Qed.
(** No special char has a style *)
Definition plain_specials (special : Special) : Prop := forall c r, special c = Some r -> fst (sc_cache r) = cs_default.
Lemma plain_origin special k text x : plain_skin k -> plain_specials special -> origin special k text x -> snd x = cs_default.
Proof.
  intros P S [(mc & f & ls & _ & _ & L & [->|(_ & ->)])|[H|(c & r & E & ->)]].
  - apply plain_text; [exact P|eapply plain_line; eassumption].
  - apply P.
  - destruct H; cbn [snd drawn_char]; try (apply P; fail). eapply plain_line; eassumption.
  - eapply S, E.
Qed.
Lemma given_drawn out c s : In (c, Some s) (given out) -> exists ch, c = Some ch /\ In (ch, s) (drawn out).
Proof.
  induction out as [|[]]; cbn [given]; intros H; try (destruct (IHout H) as (ch & ? & D); exists ch; split; [assumption|]; exact D); try (destruct H); try discriminate.
  - apply in_app_iff in H as [H|H]; [apply in_map_iff in H as (? & ? & _); discriminate|]. destruct (IHout H) as (ch & ? & D). exists ch. split; [assumption|]. apply in_app_iff. right. exact D.
  - apply in_app_iff in H as [H|H].
    + apply in_map_iff in H as (x & E & H). injection E as <- <-. exists x. split; [reflexivity|]. apply in_app_iff. left. apply in_map_iff. exists x. auto.
    + destruct (IHout H) as (ch & ? & D). exists ch. split; [assumption|]. apply in_app_iff. right. exact D.
  - destruct (IHout H) as (ch & ? & D). exists ch. auto.
  - destruct (IHout H) as (ch & ? & D). exists ch. auto.
  - destruct (IHout H) as (ch & ? & D). exists ch. auto.
Qed.
Lemma plain_inked out : faithful out -> Forall (fun x => snd x = cs_default) (drawn out) -> Forall (fun x => snd x = pen0) (inked pen0 out).
Proof.
  intros (E & _) F. rewrite E. apply Forall_forall. intros x X. apply in_map_iff in X as ((c & [s|]) & <- & X); cbn [snd]; [|reflexivity].
  apply given_drawn in X as (ch & _ & X). rewrite Forall_forall in F. apply F in X. cbn [snd] in X. subst s. reflexivity.
Qed.
(** With a skin whose styles are the default one, all is written with the colors of the terminal and without attribute *)
Theorem C82_plain : forall u special k usize_max text size a out, plain_skin k -> plain_specials special ->
  print_text u special k usize_max text size = Ret out \/ write_in_area_on u special k usize_max text a = Ret out ->
  Forall (fun x => snd x = pen0) (inked pen0 out).
Proof.
  intros u special k um text size a out P S [E|E]; (apply plain_inked; [eauto using C80_text|]).
  - apply C82_printed in E. revert E. apply Forall_impl. intros x [X| ->]; [eapply plain_origin; eassumption|reflexivity].
  - eapply C80_area. left. exact E.
  - apply C82_area in E. revert E. apply Forall_impl. intros x X. eapply plain_origin; eassumption.
Qed.
Print Assumptions C82_plain.
Theorem C82_no_style : plain_skin skin_no_style.
Proof. constructor; try reflexivity. repeat constructor. Qed.
Print Assumptions C82_no_style.

(** ** Skins limited to ASCII *)

Definition ascii (c : char) : Prop := (c < 128)%N.
Definition ascii_text (text : list MLine) : Prop := forall mc c, In mc (composites_of text) -> In c (mc_compounds mc) -> Forall ascii (src c).
Definition ascii_specials (special : Special) : Prop := forall c r, special c = Some r -> ascii (snd (sc_cache r)).
Lemma ascii_origin special k text x : ascii_text text -> ascii_specials special -> origin special (skin_limit_to_ascii k) text x -> ascii (fst x).
Proof.
  intros T S [(mc & f & ls & M & I & _)|[H|(c & r & E & ->)]].
  - apply in_flat_map in I as (c & C & I). apply in_map_iff in I as (ch & E & I). injection E as <- _. specialize (T _ _ M C). rewrite Forall_forall in T. apply T, I.
  - destruct H as [kind ls _| | | |c C]; try reflexivity. cbn in C. unfold ascii. cbn [fst]. repeat (destruct C as [<-|C]; [reflexivity|]). destruct C.
  - eapply S, E.
Qed.
(** A skin limited to ASCII writes nothing else for a text which is in ASCII *)
Theorem C82_ascii : forall u special k usize_max text size a out, ascii_text text -> ascii_specials special ->
  print_text u special (skin_limit_to_ascii k) usize_max text size = Ret out \/ write_in_area_on u special (skin_limit_to_ascii k) usize_max text a = Ret out ->
  Forall ascii (out_text out).
Proof.
  intros u special k um text size a out T S E. assert (F : Forall (fun x => ascii (fst x)) (drawn out)).
  { destruct E as [E|E].
    - apply C82_printed in E. revert E. apply Forall_impl. intros x [X| ->]; [eapply ascii_origin; eassumption|reflexivity].
    - apply C82_area in E. revert E. apply Forall_impl. intros x X. eapply ascii_origin; eassumption. }
  clear - F. induction out as [|[] out IH]; try (apply IH, F); cbn [out_text flat_map cmd_text]; [apply Forall_nil| |];
    cbn [drawn flat_map] in F; apply Forall_app in F as (F1 & F2); (apply Forall_app; split; [|apply IH, F2]); rewrite Forall_map in F1; exact F1.
Qed.
Print Assumptions C82_ascii.

(** ** Examples *)

(** All the origins are there in a text with all kinds of lines; the bullet isn't in the text *)
Example C82_example : exists out, print_text demo no_special skin_default 1000 small_text (Some (14, 30)%N) = Ret out
  /\ (let chars := map fst (drawn out) in
      In 10%N chars /\ In 8226%N chars /\ In 9616%N chars /\ In 8213%N chars /\ In 9472%N chars /\ In 20013%N chars /\ In 32%N chars)
  /\ ~ In 8226%N (flat_map (fun mc => map fst (styled (mc_compounds mc))) (composites_of small_text)).
Proof.
  eexists. split; [vm_compute; reflexivity|]. split; [vm_compute; repeat split; tauto|]. vm_compute. intros H.
  repeat (destruct H as [H|H]; [discriminate H|]). exact H.
Qed.
(** A text in ASCII, with a limited skin; the scrollbar isn't limited *)
Definition ascii_demo : list MLine := [MNormal (mkMC (MListItem 0) [plain (letters 5)]); MHorizontalRule; MNormal (mkMC MQuote [plain (letters 25)]); row [3; 9]; rule [Center]; row [30; 1]].
Example C82_ascii_example : ascii_text ascii_demo
  /\ (exists out, print_text demo no_special (skin_limit_to_ascii skin_default) 1000 ascii_demo (Some (14, 30)%N) = Ret out /\ In 42%N (out_text out) /\ In 62%N (out_text out) /\ In 45%N (out_text out) /\ In 124%N (out_text out))
  /\ (exists out, print_text demo no_special skin_default 1000 ascii_demo (Some (14, 30)%N) = Ret out /\ ~ Forall ascii (out_text out))
  /\ exists out, mad_write_on demo no_special (skin_limit_to_ascii skin_default) 1000 ascii_demo (mkArea 0 0 14 3) 0%N = Ret out /\ ~ Forall ascii (out_text out).
Proof.
  split; [|split; [|split]].
  - intros mc c M C. vm_compute in M. repeat (destruct M as [<-|M]; [cbn in C; destruct C as [<-|[]]; repeat constructor|]). destruct M.
  - eexists. split; [vm_compute; reflexivity|]. vm_compute. repeat split; tauto.
  - eexists. split; [vm_compute; reflexivity|]. intros F. rewrite Forall_forall in F. specialize (F 8226%N). assert (H : (8226 < 128)%N); [|discriminate H]. apply F. vm_compute. tauto.
  - eexists. split; [vm_compute; reflexivity|]. intros F. rewrite Forall_forall in F. specialize (F c_scroll). assert (H : (c_scroll < 128)%N); [|discriminate H]. apply F. vm_compute. tauto.
Qed.
(** The skin without style, and the default one: what has another look than the one of the terminal *)
Example C82_plain_example : exists a b, print_text demo no_special skin_no_style 1000 small_text (Some (14, 30)%N) = Ret a
  /\ print_text demo no_special skin_default 1000 small_text (Some (14, 30)%N) = Ret b
  /\ length (inked pen0 a) = 244 /\ ~ Forall (fun x => snd x = pen0) (inked pen0 b).
Proof.
  eexists. eexists. split; [vm_compute; reflexivity|]. split; [vm_compute; reflexivity|]. split; [vm_compute; reflexivity|].
  intros F. rewrite Forall_forall in F. specialize (F (Some 8213%N, mkPen (AnsiValue 238) Reset 0)). assert (H : mkPen (AnsiValue 238) Reset 0 = pen0); [|discriminate H].
  apply F. vm_compute. tauto.
Qed.
