(** * C54: a skin, serialized then deserialized *)
From Coq Require Import Ascii String Permutation.
From Verif Require Import Base L_Base Demo M_Style M_Fit M_Render M_Parse S_Parse L_Parse P_Parse M_Serde S_Serde.
Set Implicit Arguments.
Open Scope list_scope.

Lemma str_eqb_eq a : forall b, str_eqb a b = true <-> a = b.
Proof.
  induction a as [|x a IH]; intros [|y b]; cbn [str_eqb]; split; intros H; try reflexivity; try discriminate.
  - apply andb_prop in H. destruct H as (X & Y). apply N.eqb_eq in X. apply IH in Y. congruence.
  - injection H as -> ->. rewrite N.eqb_refl. apply IH. reflexivity.
Qed.

Lemma tbc_eqb_eq a b : tbc_eqb a b = true <-> a = b.
Proof.
  destruct a as [a1 a2 a3 a4 a5 a6 a7 a8 a9 a10 a11], b as [b1 b2 b3 b4 b5 b6 b7 b8 b9 b10 b11].
  unfold tbc_eqb. cbn [horizontal vertical top_left_corner top_right_corner bottom_right_corner
    bottom_left_corner top_junction right_junction bottom_junction left_junction cross].
  rewrite !andb_true_iff, !N.eqb_eq. split.
  - intros H. intuition congruence.
  - intros H. injection H as -> -> -> -> -> -> -> -> -> -> ->. repeat split.
Qed.

(** ** Reading the parts *)

Section parts.
  Context {k : classes} (K : ascii_classes k).

  Lemma de_ser_cs cs : valid_cs cs -> de_cs k (ser_cs cs) = Some (reread_cs cs).
  Proof. intros V. unfold de_cs, ser_cs. cbn [de_string obind]. rewrite C52_exact by assumption. reflexivity. Qed.
  Lemma de_ser_ls ls : valid_cs (ls_cs ls) -> de_ls k (ser_ls ls) = Some (reread_ls ls).
  Proof. intros V. unfold de_ls, ser_ls. cbn [de_string obind]. rewrite C53_line_exact by assumption. reflexivity. Qed.
  Lemma de_ser_sc sc : valid_cs (sc_style sc) -> de_sc k (ser_sc sc) = Some (reread_sc k 42 sc).
  Proof. intros V. unfold de_sc, ser_sc. cbn [de_string obind]. rewrite C53_char_exact by assumption. reflexivity. Qed.

  Lemma de_ser_headers hs : (forall h, In h hs -> valid_cs (ls_cs h)) ->
    de_headers k (VSeq (map ser_ls hs)) = Some (Levels (map reread_ls hs)).
  Proof.
    intros V. unfold de_headers, de_ls at 1. cbn [de_string obind].
    assert (E : all_some (de_ls k) (map ser_ls hs) = Some (map reread_ls hs)).
    { induction hs as [|h hs IH]; [reflexivity|]. cbn [map all_some].
      rewrite de_ser_ls by (apply V; left; reflexivity). cbn [obind]. rewrite IH; [reflexivity|].
      intros x I. apply V. right. exact I. }
    rewrite E. reflexivity.
  Qed.

  Lemma simple_dec sb : (sc_char (track sb) =? sc_char (thumb sb))%N
     && negb (is_some (bg (sc_style (track sb)))) && negb (is_some (bg (sc_style (thumb sb)))) = true <-> simple_sb sb.
  Proof.
    unfold simple_sb. rewrite !andb_true_iff, N.eqb_eq.
    destruct (bg (sc_style (track sb))), (bg (sc_style (thumb sb))); cbn [is_some negb]; intuition discriminate.
  Qed.

  Lemma de_ser_sb sb : valid_cs (sc_style (track sb)) -> valid_cs (sc_style (thumb sb)) ->
    exists d, de_sb_def k (ser_sb_def (sb_def sb)) = Some d
      /\ (simple_sb sb -> into_scrollbar_style d = reread_sb_simple k sb)
      /\ (~ simple_sb sb -> into_scrollbar_style d = reread_sb_rich k sb).
  Proof.
    intros A B. pose proof (simple_dec sb) as S. unfold sb_def.
    destruct ((sc_char (track sb) =? sc_char (thumb sb))%N && negb (is_some (bg (sc_style (track sb))))
              && negb (is_some (bg (sc_style (thumb sb))))).
    - exists (Simple (reread_sc k 42 (sc_new (cs_new (fg (sc_style (thumb sb))) (fg (sc_style (track sb))) 0) (sc_char (track sb))))).
      split; [|split].
      + unfold de_sb_def, ser_sb_def. rewrite de_ser_sc; [reflexivity|]. split; [apply B|apply A].
      + intros _. cbn [into_scrollbar_style]. unfold sb_from_sc, reread_sb_simple, reread_sc, fg_or.
        cbn [sc_style sc_char sc_new cs_new]. reflexivity.
      + intros N. exfalso. apply N. apply S. reflexivity.
    - exists (Rich (reread_sc k 42 (track sb)) (reread_sc k 42 (thumb sb))). split; [|split].
      + unfold de_sb_def, ser_sb_def.
        change (de_sc k (VMap [(lit "track", ser_sc (track sb)); (lit "thumb", ser_sc (thumb sb))])) with (@None StyledChar).
        change (field (lit "track") [(lit "track", ser_sc (track sb)); (lit "thumb", ser_sc (thumb sb))])
          with (Some (ser_sc (track sb))).
        change (field (lit "thumb") [(lit "track", ser_sc (track sb)); (lit "thumb", ser_sc (thumb sb))])
          with (Some (ser_sc (thumb sb))).
        cbn [obind]. rewrite !de_ser_sc by assumption. reflexivity.
      + intros N. apply S in N. discriminate.
      + intros _. reflexivity.
  Qed.
End parts.

Lemma tbc_key_spec t :
  match tbc_key t with
  | Some s => In t known_borders /\ tbc_by_key s = Some t
  | None => ~ In t known_borders
  end.
Proof.
  unfold tbc_key.
  destruct (tbc_eqb t STANDARD_TBC) eqn:A; [apply tbc_eqb_eq in A; subst; split; [left|]; reflexivity|].
  destruct (tbc_eqb t ASCII_TBC) eqn:B; [apply tbc_eqb_eq in B; subst; split; [right; left|]; reflexivity|].
  destruct (tbc_eqb t ROUNDED_TBC) eqn:C; [apply tbc_eqb_eq in C; subst; split; [right; right; left|]; reflexivity|].
  intros [<-|[<-|[<-|[]]]]; discriminate.
Qed.

(** ** Entries in any order *)

Lemma fold_perm (a b : list (MadSkin -> MadSkin)) : Permutation a b ->
  (forall f g s, In f a -> In g a -> f (g s) = g (f s)) ->
  forall s, fold_left (fun s f => f s) a s = fold_left (fun s f => f s) b s.
Proof.
  induction 1; intros C s.
  - reflexivity.
  - cbn [fold_left]. apply IHPermutation. intros f g t F G. apply C; right; assumption.
  - cbn [fold_left]. rewrite (C x y) by (cbn; auto). reflexivity.
  - rewrite IHPermutation1 by exact C. apply IHPermutation2.
    intros f g t F G. apply C; eapply Permutation_in; try eassumption; apply Permutation_sym; assumption.
Qed.

Lemma entries_perm k (z : list ((str * value) * (MadSkin -> MadSkin))) l :
  Permutation (map fst z) l ->
  (forall e s, In e z -> de_entry k s (fst (fst e)) (snd (fst e)) = Some (snd e s)) ->
  (forall f g s, In f (map snd z) -> In g (map snd z) -> f (g s) = g (f s)) ->
  forall s, de_entries k s l = Some (fold_left (fun s f => f s) (map snd z) s).
Proof.
  intros P D C s.
  apply Permutation_sym, Permutation_map_inv in P. destruct P as (z' & -> & P).
  rewrite (@fold_perm (map snd z) (map snd z')); [|apply Permutation_map; exact P|exact C].
  assert (D' : forall e s, In e z' -> de_entry k s (fst (fst e)) (snd (fst e)) = Some (snd e s)).
  { intros e t I. apply D. eapply Permutation_in; [apply Permutation_sym; exact P|exact I]. }
  clear D C P. revert s. induction z' as [|((key, v), f) z' IH]; intros s; [reflexivity|].
  cbn [map fst snd de_entries fold_left].
  pose proof (D' ((key, v), f) s (or_introl eq_refl)) as X. cbn [fst snd] in X. rewrite X. cbn [obind]. apply IH.
  intros e t I. apply D'. right. exact I.
Qed.

Definition entries_of (v : value) : list (str * value) := match v with VMap l => l | _ => [] end.

Lemma set_levels_full a : forall b, length a = length b -> set_levels a b = b.
Proof.
  induction a as [|x a IH]; intros [|y b] H; try discriminate; [reflexivity|]. cbn [set_levels].
  rewrite IH by (cbn in H; lia). reflexivity.
Qed.

(** ** The keys *)

Lemma key_bold k q v : de_entry k q (lit "bold") v = option_map (k_bold q) (de_cs k v).
Proof. reflexivity. Qed.
Lemma key_italic k q v : de_entry k q (lit "italic") v = option_map (k_italic q) (de_cs k v).
Proof. reflexivity. Qed.
Lemma key_strikeout k q v : de_entry k q (lit "strikeout") v = option_map (k_strikeout q) (de_cs k v).
Proof. reflexivity. Qed.
Lemma key_inline_code k q v : de_entry k q (lit "inline_code") v = option_map (k_inline_code q) (de_cs k v).
Proof. reflexivity. Qed.
Lemma key_ellipsis k q v : de_entry k q (lit "ellipsis") v = option_map (k_ellipsis q) (de_cs k v).
Proof. reflexivity. Qed.
Lemma key_bullet k q v : de_entry k q (lit "bullet") v = option_map (k_bullet q) (de_sc k v).
Proof. reflexivity. Qed.
Lemma key_quote k q v : de_entry k q (lit "quote") v = option_map (k_quote_mark q) (de_sc k v).
Proof. reflexivity. Qed.
Lemma key_rule k q v : de_entry k q (lit "horizontal_rule") v = option_map (k_rule q) (de_sc k v).
Proof. reflexivity. Qed.
Lemma key_scrollbar k q v : de_entry k q (lit "scrollbar") v = option_map (fun d => k_scrollbar q (into_scrollbar_style d)) (de_sb_def k v).
Proof. reflexivity. Qed.
Lemma key_paragraph k q v : de_entry k q (lit "paragraph") v = option_map (k_paragraph q) (de_ls k v).
Proof. reflexivity. Qed.
Lemma key_code_block k q v : de_entry k q (lit "code_block") v = option_map (k_code_block q) (de_ls k v).
Proof. reflexivity. Qed.
Lemma key_table k q v : de_entry k q (lit "table") v = option_map (k_table q) (de_ls k v).
Proof. reflexivity. Qed.
Lemma key_headers k q v : de_entry k q (lit "headers") v = option_map (fun i => set_headers q (headers_apply i (headers q))) (de_headers k v).
Proof. reflexivity. Qed.
Lemma key_borders k q v : de_entry k q (lit "table_border_chars") v = option_map (fun s => match tbc_by_key s with Some c => k_tbc q c | None => q end) (de_string v).
Proof. reflexivity. Qed.

(** All the fields are set *)
Lemma all_set q a b c d e f g h i j l m hs :
  fold_left (fun s (f : MadSkin -> MadSkin) => f s)
    [fun q => k_bold q a; fun q => k_italic q b; fun q => k_strikeout q c; fun q => k_inline_code q d; fun q => k_ellipsis q e;
     fun q => k_bullet q f; fun q => k_quote_mark q g; fun q => k_rule q h; fun q => k_scrollbar q i;
     fun q => k_paragraph q j; fun q => k_code_block q l; fun q => k_table q m;
     fun q => set_headers q (set_levels (headers q) hs)] q
  = mkSkin j a b c d l (set_levels (headers q) hs) i m f g h e (table_border_chars q) (indent_mode q).
Proof. destruct q. reflexivity. Qed.

(** What's read from any serialized skin, whatever the order of the entries in the document *)
Theorem C54_exact k full l : ascii_classes k -> valid_skin (fst full) ->
  Permutation (entries_of (ser_skin full)) l ->
  exists s', de_skin k (VMap l) = Some (s', []) /\ reread_skin k (fst full) s'.
Proof.
  intros K V P. destruct full as [s sp]. cbn [fst] in *.
  destruct (@de_ser_sb k K (scrollbar s)) as (d & D & DS & DR); [apply V | apply V |].
  pose proof (tbc_key_spec (table_border_chars s)) as T.
  pose (z := [ ((lit "bold", ser_cs (bold s)), fun q => k_bold q (reread_cs (bold s)));
          ((lit "italic", ser_cs (italic s)), fun q => k_italic q (reread_cs (italic s)));
          ((lit "strikeout", ser_cs (strikeout s)), fun q => k_strikeout q (reread_cs (strikeout s)));
          ((lit "inline_code", ser_cs (inline_code s)), fun q => k_inline_code q (reread_cs (inline_code s)));
          ((lit "ellipsis", ser_cs (ellipsis s)), fun q => k_ellipsis q (reread_cs (ellipsis s)));
          ((lit "bullet", ser_sc (bullet s)), fun q => k_bullet q (reread_sc k 42 (bullet s)));
          ((lit "quote", ser_sc (quote_mark s)), fun q => k_quote_mark q (reread_sc k 42 (quote_mark s)));
          ((lit "horizontal_rule", ser_sc (horizontal_rule s)), fun q => k_rule q (reread_sc k 42 (horizontal_rule s)));
          ((lit "scrollbar", ser_sb_def (sb_def (scrollbar s))), fun q => k_scrollbar q (into_scrollbar_style d));
          ((lit "paragraph", ser_ls (paragraph s)), fun q => k_paragraph q (reread_ls (paragraph s)));
          ((lit "code_block", ser_ls (code_block s)), fun q => k_code_block q (reread_ls (code_block s)));
          ((lit "table", ser_ls (table s)), fun q => k_table q (reread_ls (table s)));
          ((lit "headers", VSeq (map ser_ls (headers s))),
            fun q => set_headers q (set_levels (headers q) (map reread_ls (headers s)))) ]
        ++ match tbc_key (table_border_chars s) with
           | Some key => [((lit "table_border_chars", VStr key), fun q => k_tbc q (table_border_chars s))]
           | None => []
           end).
  assert (E : de_entries k skin_default l = Some (fold_left (fun s f => f s) (map snd z) skin_default)).
  { apply entries_perm with (z := z).
    - replace (map fst z) with (entries_of (ser_skin (s, sp))); [exact P|].
      unfold z, ser_skin. rewrite map_app. cbn [entries_of fst snd map app].
      destruct (tbc_key (table_border_chars s)); reflexivity.
    - intros e q I. unfold z in I. apply in_app_iff in I. destruct I as [I|I].
      + cbn [In] in I.
        do 13 (destruct I as [<-|I];
          [cbn [fst snd];
           first [rewrite key_bold|rewrite key_italic|rewrite key_strikeout|rewrite key_inline_code|rewrite key_ellipsis
                 |rewrite key_bullet|rewrite key_quote|rewrite key_rule|rewrite key_scrollbar|rewrite key_paragraph
                 |rewrite key_code_block|rewrite key_table|rewrite key_headers];
           first [ rewrite (de_ser_cs K) by apply V; reflexivity
                 | rewrite (de_ser_ls K) by (first [exact (v_paragraph V)|exact (v_code_block V)|exact (v_table V)]); reflexivity
                 | rewrite (de_ser_sc K) by apply V; reflexivity
                 | rewrite D; reflexivity
                 | rewrite (de_ser_headers K) by apply V; reflexivity ]|]).
        destruct I.
      + destruct (tbc_key (table_border_chars s)) as [key|]; [|destruct I].
        destruct I as [<-|[]]. destruct T as (_ & T). cbn [fst snd]. rewrite key_borders.
        cbn [de_string option_map]. rewrite T. reflexivity.
    - intros f g q F G. unfold z in F, G. rewrite map_app in F, G. cbn [map snd] in F, G.
      apply in_app_iff in F, G.
      assert (TG : forall h, In h (map snd match tbc_key (table_border_chars s) with
           | Some key => [((lit "table_border_chars", VStr key), fun q => k_tbc q (table_border_chars s))]
           | None => [] end) -> h = fun q => k_tbc q (table_border_chars s)).
      { destruct (tbc_key (table_border_chars s)); cbn; intuition congruence. }
      destruct F as [F|F]; [|apply TG in F; subst f]; (destruct G as [G|G]; [|apply TG in G; subst g]); cbn [In] in *.
      + repeat (destruct F as [<-|F]; [repeat (destruct G as [<-|G]; [destruct q; reflexivity|]); destruct G|]). destruct F.
      + repeat (destruct F as [<-|F]; [destruct q; reflexivity|]). destruct F.
      + repeat (destruct G as [<-|G]; [destruct q; reflexivity|]). destruct G.
      + reflexivity. }
  unfold z in E. rewrite map_app, fold_left_app in E. cbn [map snd] in E. rewrite all_set in E.
  rewrite set_levels_full in E by (rewrite map_length, (v_headers_length V); reflexivity).
  unfold de_skin. rewrite E. eexists. split; [reflexivity|].
  destruct (tbc_key (table_border_chars s)) as [key|]; cbn [map snd fold_left]; split; try reflexivity; try assumption;
    cbn [table_border_chars k_tbc]; tauto.
Qed.

(** ** The skins which are read back *)

Lemma reread_ls_faithful ls : reread_ls ls = ls <-> faithful_ls ls.
Proof.
  assert (M : forall m, reread_margin m = m <-> (N.of_nat m < 65536)%N).
  { intros m. unfold reread_margin. destruct (N.of_nat m <? 65536)%N eqn:E; lia. }
  unfold faithful_ls. rewrite <- !M, <- reread_cs_faithful. unfold reread_ls. destruct ls as [cs al l r].
  cbn [ls_cs ls_align left_margin right_margin]. split.
  - intros E. injection E as A B C. auto.
  - intros (A & B & C). rewrite A, B, C. reflexivity.
Qed.

Lemma star_printable k : ascii_classes k -> printable k 42.
Proof.
  intros K. split; [apply (not_space K); lia|]. unfold ascii_digit. lia.
Qed.

Lemma reread_char_faithful k c : ascii_classes k -> reread_char k 42 c = c <-> printable k c.
Proof.
  intros K. pose proof (star_printable K) as S.
  unfold reread_char. destruct (rx_space k c) eqn:X; cbn [orb].
  - split; [intros <-; exact S|]. intros (A & _). congruence.
  - destruct ((c =? 40)%N || (c =? 41)%N || (48 <=? c)%N && (c <=? 57)%N) eqn:E; split; intros H.
    + rewrite <- H. exact S.
    + unfold printable, ascii_digit in H. lia.
    + unfold printable, ascii_digit. rewrite X. lia.
    + reflexivity.
Qed.

Lemma reread_sc_faithful k sc : ascii_classes k -> reread_sc k 42 sc = sc <-> faithful_sc k sc.
Proof.
  intros K. unfold faithful_sc. rewrite <- reread_cs_faithful, <- reread_char_faithful by exact K.
  unfold reread_sc, fresh_cache. destruct sc as [cs c ca]. cbn [sc_style sc_char sc_cache]. split.
  - intros E. injection E as A B C. rewrite A, B in C. auto.
  - intros (A & B & C). rewrite A, B, C. reflexivity.
Qed.

Lemma from_fg_char_inj c d x y : sc_from_fg_char c x = sc_from_fg_char d y -> c = d /\ x = y.
Proof. intros E. injection E. auto. Qed.

Lemma reread_sb_faithful k sb : ascii_classes k ->
  ((simple_sb sb -> reread_sb_simple k sb = sb) /\ (~ simple_sb sb -> reread_sb_rich k sb = sb)) <-> faithful_sb k sb.
Proof.
  intros K. split.
  - intros (S & R).
    assert (D : simple_sb sb \/ ~ simple_sb sb).
    { pose proof (simple_dec sb) as X. destruct (_ && _); [left; apply X; reflexivity | right; intros H; apply X in H; discriminate]. }
    destruct D as [D|D].
    + right. specialize (S D). clear R. unfold reread_sb_simple in S. cbv zeta in S.
      set (cs := reread_cs _) in S. set (c := reread_char _ _ _) in S.
      exists (match fg cs with Some x => x | None => AnsiValue 253 end), (match bg cs with Some x => x | None => AnsiValue 237 end), c.
      split; [symmetry; exact S|].
      assert (L : forall o x, reread_ocolor o = Some x -> ~ In x lost_colors).
      { intros [[]|] x H; cbn in H; try discriminate H; injection H as <-; cbn [lost_colors In]; intuition discriminate. }
      assert (F : faithful_cs cs).
      { unfold cs, reread_cs. cbn [fg bg attrs].
        destruct (fg (sc_style (thumb sb))) as [[]|] eqn:E;
        (split; cbn [fg bg underline attrs]; [ | |reflexivity|cbn; discriminate]; try exact (L _); try (intros; discriminate)).
        all: try (intros x H; apply (L (Some x)); cbn in H |- *; injection H as <-; reflexivity).
        all: try (intros x H; apply (L _ _ H)). }
      split; [|split].
      * destruct (fg cs) as [x|] eqn:E; [apply (ff_fg F E)|]. cbn. intuition discriminate.
      * destruct (bg cs) as [x|] eqn:E; [apply (ff_bg F E)|]. cbn. intuition discriminate.
      * apply reread_char_faithful; [exact K|].
        assert (Y : sc_char (track sb) = c) by (rewrite <- S; reflexivity).
        unfold c at 2. rewrite Y. reflexivity.
    + left. specialize (R D). split; [exact D|]. unfold reread_sb_rich in R. destruct sb as [tr th].
      cbn [track thumb] in *. injection R as A B. split; apply reread_sc_faithful; assumption.
  - intros [(D & A & B)|(f & b & c & -> & F & B & C)].
    + split; [intros S; contradiction|]. intros _. unfold reread_sb_rich. destruct sb as [tr th]. cbn [track thumb] in *.
      apply reread_sc_faithful in A, B; try exact K. rewrite A, B. reflexivity.
    + split; [intros _ | intros N; exfalso; apply N; repeat split; reflexivity].
      unfold reread_sb_simple. cbn [track thumb sc_from_fg_char sc_new sc_style sc_char with_fg cs_new fg bg].
      assert (R : reread_cs (mkCS (Some f) (Some b) None 0) = mkCS (Some f) (Some b) None 0).
      { apply reread_cs_faithful. split; cbn; try congruence. intros x H; injection H as <-; exact F. intros x H; injection H as <-; exact B. }
      unfold with_fg, cs_new. cbn [fg bg]. rewrite R. cbn [fg bg fg_or]. apply reread_char_faithful in C; [|exact K]. rewrite C. reflexivity.
Qed.

Lemma skin_ext a b : paragraph a = paragraph b -> bold a = bold b -> italic a = italic b -> strikeout a = strikeout b -> inline_code a = inline_code b -> code_block a = code_block b -> headers a = headers b -> scrollbar a = scrollbar b -> table a = table b -> bullet a = bullet b -> quote_mark a = quote_mark b -> horizontal_rule a = horizontal_rule b -> ellipsis a = ellipsis b -> table_border_chars a = table_border_chars b -> indent_mode a = indent_mode b -> a = b.
Proof. destruct a, b. cbn. intros. subst. reflexivity. Qed.

(** The statement, for the skins without anything lost and no special chars, and only them *)
Theorem C54_read_back_partial k full l : ascii_classes k -> valid_skin (fst full) ->
  Permutation (entries_of (ser_skin full)) l ->
  de_skin k (VMap l) = Some full <-> faithful_skin k (fst full) /\ snd full = [].
Proof.
  intros K V P. destruct (@C54_exact k full l K V P) as (s' & E & R). rewrite E. clear E.
  destruct full as [s sp]. cbn [fst snd] in *. split.
  - intros X. injection X as -> <-. split; [|reflexivity].
    destruct R. split; try (apply reread_ls_faithful; symmetry; assumption); try (apply reread_cs_faithful; symmetry; assumption);
      try (apply reread_sc_faithful; [exact K|]; symmetry; assumption).
    + intros h I. apply reread_ls_faithful.
      assert (G : forall l, l = map reread_ls l -> forall h, In h l -> reread_ls h = h).
      { clear. induction l as [|x l IH]; intros E h I; [destruct I|]. cbn [map] in E. injection E as E1 E2.
        destruct I as [<-|I]; [symmetry; exact E1|apply IH; assumption]. }
      apply (G (headers s)); assumption.
    + apply reread_sb_faithful; [exact K|]. split; intros S; symmetry; auto.
    + assert (D : In (table_border_chars s) known_borders \/ ~ In (table_border_chars s) known_borders).
      { pose proof (tbc_key_spec (table_border_chars s)) as T. destruct (tbc_key (table_border_chars s)); [left; apply T|right; exact T]. }
      destruct D as [D|D]; [exact D|]. rewrite (r_other_borders D). left. reflexivity.
    + assumption.
  - intros (F & ->). f_equal. f_equal. destruct R, F.
    pose proof (proj2 (@reread_sb_faithful k (scrollbar s) K) f_scrollbar) as (SS & SR).
    assert (D : simple_sb (scrollbar s) \/ ~ simple_sb (scrollbar s)).
    { pose proof (simple_dec (scrollbar s)) as X. destruct (_ && _); [left; apply X; reflexivity | right; intros H; apply X in H; discriminate]. }
    assert (SB : scrollbar s' = scrollbar s).
    { destruct D as [D|D]; [rewrite (r_simple D); apply SS; exact D | rewrite (r_rich D); apply SR; exact D]. }
    assert (HS : headers s' = headers s).
    { rewrite r_headers. clear - f_headers. induction (headers s) as [|h hs IH]; [reflexivity|]. cbn [map].
      f_equal; [apply reread_ls_faithful, f_headers; left; reflexivity|]. apply IH. intros x I. apply f_headers. right. exact I. }
    apply reread_ls_faithful in f_paragraph, f_code_block, f_table.
    apply reread_cs_faithful in f_bold, f_italic, f_strikeout, f_inline_code, f_ellipsis.
    apply reread_sc_faithful in f_bullet, f_quote_mark, f_rule; try exact K.
    specialize (r_borders f_borders).
    apply skin_ext; congruence.
Qed.

(** The skins of src/skin.rs are read back, provided their bullet, bar and rule aren't spaces for regex *)
Theorem C54_defaults k : ascii_classes k -> rx_space k 8226 = false -> rx_space k 9616 = false -> rx_space k 8213 = false ->
  forall s, In s [skin_default; skin_default_dark; skin_default_light; skin_no_style; skin_limit_to_ascii skin_default;
                  skin_limit_to_ascii skin_no_style] ->
  de_skin k (ser_skin (s, [])) = Some (s, []).
Proof.
  intros K A B C s I.
  assert (P8226 : printable k 8226) by (unfold printable, ascii_digit; rewrite A; lia).
  assert (P9616 : printable k 9616) by (unfold printable, ascii_digit; rewrite B; lia).
  assert (P8213 : printable k 8213) by (unfold printable, ascii_digit; rewrite C; lia).
  assert (P42 : printable k 42) by (apply (star_printable K)).
  assert (P62 : printable k 62) by (unfold printable, ascii_digit; rewrite (not_space K) by lia; lia).
  assert (P45 : printable k 45) by (unfold printable, ascii_digit; rewrite (not_space K) by lia; lia).
  clear A B C.
  assert (FC : forall cs, reread_cs cs = cs -> faithful_cs cs) by (intros cs; apply reread_cs_faithful).
  assert (FL : forall ls, reread_ls ls = ls -> faithful_ls ls) by (intros ls; apply reread_ls_faithful).
  assert (FS : forall sc, reread_cs (sc_style sc) = sc_style sc -> printable k (sc_char sc) -> fresh_cache sc -> faithful_sc k sc).
  { intros sc X Y Z. split; [apply FC; exact X|]. split; assumption. }
  assert (FB : faithful_sb k sb_new).
  { right. exists (gray 21), (gray 5), c_scroll. split; [reflexivity|]. split; [|split; [|exact P9616]]; cbn; intuition discriminate. }
  assert (FH : forall hs, map reread_ls hs = hs -> forall h, In h hs -> faithful_ls h).
  { induction hs as [|x hs IH]; intros E h H; [destruct H|]. cbn [map] in E. injection E as E1 E2.
    destruct H as [<-|H]; [apply FL; exact E1|apply IH; assumption]. }
  assert (VC : forall cs, (match fg cs with Some (AnsiValue n) => (n <=? 255)%N | None => true | _ => false end
                           && match bg cs with Some (AnsiValue n) => (n <=? 255)%N | None => true | _ => false end) = true -> valid_cs cs).
  { intros cs H. apply andb_prop in H. destruct H as (X & Y). split.
    - destruct (fg cs) as [[]|]; try discriminate X; cbn; [lia|exact Logic.I].
    - destruct (bg cs) as [[]|]; try discriminate Y; cbn; [lia|exact Logic.I]. }
  assert (VH : forall hs, forallb (fun h => match fg (ls_cs h) with Some (AnsiValue n) => (n <=? 255)%N | None => true | _ => false end
                           && match bg (ls_cs h) with Some (AnsiValue n) => (n <=? 255)%N | None => true | _ => false end) hs = true ->
                    forall h, In h hs -> valid_cs (ls_cs h)).
  { intros hs H h I'. rewrite forallb_forall in H. apply VC. apply H. exact I'. }
  assert (W : valid_skin s /\ faithful_skin k s).
  { cbn [In] in I.
    repeat (destruct I as [<-|I];
      [ split;
        [ split; first [apply VC; vm_compute; reflexivity | apply VH; vm_compute; reflexivity | vm_compute; reflexivity]
        | split; first [ exact FB
                       | apply FC; vm_compute; reflexivity
                       | apply FL; vm_compute; reflexivity
                       | apply FH; vm_compute; reflexivity
                       | apply FS; [vm_compute; reflexivity | assumption | reflexivity]
                       | vm_compute; tauto ] ] |]).
    destruct I. }
  destruct W as (V & F).
  destruct (@C54_read_back_partial k (s, []) (entries_of (ser_skin (s, []))) K V (Permutation_refl _)) as (_ & R).
  exact (R (conj F eq_refl)).
Qed.

(** The statement as it's given: the texts are rendered the same way *)
Theorem C54_render_partial k full l : ascii_classes k -> valid_skin (fst full) -> Permutation (entries_of (ser_skin full)) l ->
  faithful_skin k (fst full) -> snd full = [] ->
  exists full', de_skin k (VMap l) = Some full'
    /\ forall special line width with_right_completion,
       write_fmt_line special (fst full') line width with_right_completion
       = write_fmt_line special (fst full) line width with_right_completion.
Proof.
  intros K V P F S. exists full. split; [|reflexivity].
  apply (@C54_read_back_partial k full l K V P). split; assumption.
Qed.

(** ** Other documents *)

(** A text as headers: its style is put over the one of every header *)
Theorem C54_headers_text k s v ls : de_ls k v = Some ls ->
  exists s', de_entry k s (lit "headers") v = Some s' /\ Forall2 (header_over ls) (headers s) (headers s')
    /\ s' = set_headers s (headers s').
Proof.
  intros E. rewrite key_headers. unfold de_headers. rewrite E. cbn [option_map headers_apply].
  eexists. split; [reflexivity|]. cbn [headers set_headers]. split; [|reflexivity].
  induction (headers s) as [|h hs IH]; constructor; [|exact IH].
  assert (FA : forall l c, fold_left cs_add_attr l c = mkCS (fg c) (bg c) (underline c) (fold_left attrs_set l (attrs c))).
  { clear. induction l as [|a l IH]; intros c; cbn [fold_left]; [destruct c; reflexivity|]. rewrite IH. reflexivity. }
  unfold header_add. split; cbn [ls_cs ls_align left_margin right_margin]; try rewrite FA; cbn [fg bg underline attrs];
    try reflexivity.
  - destruct (fg (ls_cs ls)), (bg (ls_cs ls)); reflexivity.
  - destruct (fg (ls_cs ls)), (bg (ls_cs ls)); reflexivity.
  - destruct (fg (ls_cs ls)), (bg (ls_cs ls)); reflexivity.
  - intros i. rewrite <- N.land_spec, <- attrs_printed, !attrs_fold_testbit, N.bits_0. cbn [orb]. f_equal.
    destruct (fg (ls_cs ls)), (bg (ls_cs ls)); reflexivity.
Qed.

(** A sequence as headers: each one replaces the header of its level, the levels without one are left as they are,
    those after the last header are ignored *)
Theorem C54_headers_levels k s vs ls : all_some (de_ls k) vs = Some ls ->
  exists s', de_entry k s (lit "headers") (VSeq vs) = Some s' /\ s' = set_headers s (headers s')
    /\ length (headers s') = length (headers s)
    /\ forall i, i < length (headers s) ->
       nth_error (headers s') i = if i <? length ls then nth_error ls i else nth_error (headers s) i.
Proof.
  intros E. rewrite key_headers. unfold de_headers, de_ls at 1. cbn [de_string obind]. rewrite E. cbn [option_map headers_apply].
  eexists. split; [reflexivity|]. split; [reflexivity|]. cbn [headers set_headers]. clear E. revert ls.
  induction (headers s) as [|h hs IH]; intros ls; cbn [set_levels length].
  - split; [reflexivity|]. intros i H. lia.
  - destruct ls as [|l ls]; cbn [length].
    + split; [reflexivity|]. intros i H. reflexivity.
    + destruct (IH ls) as (A & B). split; [rewrite A; reflexivity|]. intros i H. destruct i as [|i]; [reflexivity|].
      cbn [nth_error]. rewrite B by lia. destruct (Nat.ltb_spec i (length ls)); destruct (Nat.ltb_spec (S i) (S (length ls))); try lia; reflexivity.
Qed.

(** The other names of the keys *)
Theorem C54_keys k s v :
  de_entry k s (lit "inline-code") v = de_entry k s (lit "inline_code") v
  /\ de_entry k s (lit "quote_mark") v = de_entry k s (lit "quote") v
  /\ de_entry k s (lit "quote-mark") v = de_entry k s (lit "quote") v
  /\ de_entry k s (lit "horizontal-rule") v = de_entry k s (lit "horizontal_rule") v
  /\ de_entry k s (lit "rule") v = de_entry k s (lit "horizontal_rule") v
  /\ de_entry k s (lit "code-block") v = de_entry k s (lit "code_block") v
  /\ de_entry k s (lit "table-border-chars") v = de_entry k s (lit "table_border_chars") v.
Proof. repeat split. Qed.

(** An unknown key with a text changes nothing; with something else the document is rejected *)
Theorem C54_unknown_key k s key v : ~ In key known_keys ->
  de_entry k s key v = match v with VStr _ => Some s | _ => None end.
Proof.
  intros N.
  assert (X : forall names, (forall n, In n names -> In (lit n) known_keys) -> is_key key names = false).
  { intros names H. unfold is_key. destruct (existsb (fun n => str_eqb key (lit n)) names) eqn:E; [|reflexivity].
    apply existsb_exists in E. destruct E as (n & I & E). apply str_eqb_eq in E. subst key.
    exfalso. apply N. apply H. exact I. }
  unfold de_entry.
  rewrite !X by (intros n H; unfold known_keys; apply in_map; cbn [In] in *; tauto).
  destruct v; reflexivity.
Qed.

(** A document which isn't a map is rejected, an empty one gives the default skin *)
Theorem C54_documents k :
  (forall s, de_skin k (VStr s) = None) /\ (forall l, de_skin k (VSeq l) = None) /\ de_skin k (VMap []) = Some (skin_default, []).
Proof. repeat split. Qed.

(** ** What's lost *)

Definition with_paragraph (c : Color) : MadSkin := k_paragraph skin_default (ls_from_cs (with_fg c)).
Definition with_indent (m : IndentMode) : MadSkin :=
  let k := skin_default in
  mkSkin (paragraph k) (bold k) (italic k) (strikeout k) (inline_code k) (code_block k) (headers k) (scrollbar k)
    (table k) (bullet k) (quote_mark k) (horizontal_rule k) (ellipsis k) (table_border_chars k) m.

(** The indentation mode of the lists: the lines after the first one of an item are indented differently *)
Theorem C54_indent_refuted : exists k full full', ascii_classes k /\ de_skin k (ser_skin full) = Some full'
  /\ composite_mark (fst full') (KListItemFollowUp 1) <> composite_mark (fst full) (KListItemFollowUp 1).
Proof.
  exists demo_classes, (with_indent FirstLineOnly, []), (with_indent Block, []).
  split; [exact demo_ascii|]. split; [vm_compute; reflexivity|]. vm_compute. discriminate.
Qed.
(** The color of a style *)
Theorem C54_color_refuted : exists k full full', ascii_classes k /\ de_skin k (ser_skin full) = Some full'
  /\ sc_repeated (sc_new (ls_cs (paragraph (fst full))) 45) 3 = [Styled (with_fg DarkBlue) [45; 45; 45]%N]
  /\ sc_repeated (sc_new (ls_cs (paragraph (fst full'))) 45) 3 = [Styled (with_fg Blue) [45; 45; 45]%N].
Proof.
  exists demo_classes, (with_paragraph DarkBlue, []), (with_paragraph Blue, []).
  split; [exact demo_ascii|]. repeat split.
Qed.
(** The special chars *)
Theorem C54_special_refuted : exists k full full', ascii_classes k /\ de_skin k (ser_skin full) = Some full'
  /\ snd full <> snd full'.
Proof.
  exists demo_classes, (skin_default, [(mkCompound [42%N] false false false false, sc_nude 9733)]), (skin_default, []).
  split; [exact demo_ascii|]. split; [vm_compute; reflexivity|]. discriminate.
Qed.
(** The attributes of a simple scrollbar, and the absence of color of its thumb *)
Theorem C54_scrollbar_refuted : exists k full full', ascii_classes k /\ de_skin k (ser_skin full) = Some full'
  /\ faithful_sc k (track (scrollbar (fst full))) /\ faithful_sc k (thumb (scrollbar (fst full)))
  /\ sc_style (thumb (scrollbar (fst full))) = with_attr Bold
  /\ sc_style (thumb (scrollbar (fst full'))) = with_fg (gray 21).
Proof.
  exists demo_classes, (k_scrollbar skin_default (mkSB (sc_from_fg_char Red 9616) (sc_new (with_attr Bold) 9616)), []),
    (k_scrollbar skin_default (mkSB (sc_from_fg_char Red 9616) (sc_from_fg_char (gray 21) 9616)), []).
  split; [exact demo_ascii|]. split; [vm_compute; reflexivity|].
  split; [apply (@reread_sc_faithful demo_classes _ demo_ascii); vm_compute; reflexivity|].
  split; [apply (@reread_sc_faithful demo_classes _ demo_ascii); vm_compute; reflexivity|].
  split; reflexivity.
Qed.
(** Other table borders than the three known ones *)
Theorem C54_borders_refuted : exists k full full', ascii_classes k /\ de_skin k (ser_skin full) = Some full'
  /\ vertical (table_border_chars (fst full)) = 9553%N /\ vertical (table_border_chars (fst full')) = 9474%N.
Proof.
  exists demo_classes, (k_tbc skin_default (mkTBC 9552 9553 9556 9559 9565 9562 9574 9571 9577 9568 9580), []), (skin_default, []).
  split; [exact demo_ascii|]. split; [vm_compute; reflexivity|]. split; reflexivity.
Qed.

(** The last skin of the test of src/serde/serde_skin.rs:248-271 *)
Definition test_skin : MadSkin :=
  let k := skin_default in
  let k := set_headers k (map (fun h => ls_set_fg h (AnsiValue 178)) (headers k)) in
  let k := set_headers k (map_nth 2 (fun h => ls_set_fg h (gray 22)) (headers k)) in
  let k := k_bold k (cs_set_fg (bold k) Yellow) in
  let k := k_italic k (cs_set_fgbg (italic k) Magenta (rgb 30 30 40)) in
  let k := k_bullet k (sc_from_fg_char Yellow 10209) in
  let k := k_quote_mark k (sc_set_fg (quote_mark k) Yellow) in
  let k := k_scrollbar k (mkSB (track (scrollbar k)) (sc_set_fg (thumb (scrollbar k)) (AnsiValue 178))) in
  let k := k_tbc k ROUNDED_TBC in
  let k := k_paragraph k (mkLS (with_fgbg Magenta (rgb 30 30 40)) Center 0 0) in
  let k := k_table k (mkLS (ls_cs (table k)) Center 0 0) in
  let k := k_inline_code k (cs_add_attr (inline_code k) Reverse) in
  k_italic k (cs_add_attr (cs_add_attr (italic k) Underlined) OverLined).
Example C54_example :
  de_skin demo_classes (ser_skin (test_skin, [])) = Some (test_skin, [])
  /\ de_skin demo_classes (VMap (rev (entries_of (ser_skin (test_skin, []))))) = Some (test_skin, [])
  /\ In (lit "italic", VStr (lit "Magenta rgb(30, 30, 40) Italic Underlined OverLined")) (entries_of (ser_skin (test_skin, [])))
  /\ In (lit "scrollbar", VStr (9616%N :: lit " ansi(178) ansi(237)")) (entries_of (ser_skin (test_skin, []))).
Proof.
  split; [vm_compute; reflexivity|]. split; [vm_compute; reflexivity|]. split.
  - right; left. vm_compute. reflexivity.
  - do 8 right; left. vm_compute. reflexivity.
Qed.
Example C54_rich_example :
  let sb := mkSB (sc_new (with_fgbg Red Green) 124) (sc_nude 35) in
  let s := k_scrollbar skin_default sb in
  faithful_sb demo_classes sb /\ de_skin demo_classes (ser_skin (s, [])) = Some (s, []).
Proof.
  cbv zeta. split.
  - left. split; [intros (_ & X & _); discriminate X|].
    split; apply (@reread_sc_faithful demo_classes _ demo_ascii); vm_compute; reflexivity.
  - vm_compute. reflexivity.
Qed.
Example C54_text_example :
  option_map (fun s => map ls_string (firstn 2 (headers s)))
    (de_entry demo_classes skin_default (lit "headers") (VStr (lit "red italic right 4 4")))
  = Some [lit "Red Bold Italic Underlined right"; lit "Red Italic Underlined right"].
Proof. vm_compute. reflexivity. Qed.

Print Assumptions C54_exact.
Print Assumptions C54_read_back_partial.
Print Assumptions C54_defaults.
Print Assumptions C54_render_partial.
Print Assumptions C54_headers_text.
Print Assumptions C54_headers_levels.
Print Assumptions C54_keys.
Print Assumptions C54_unknown_key.
Print Assumptions C54_documents.
Print Assumptions C54_indent_refuted.
Print Assumptions C54_color_refuted.
Print Assumptions C54_special_refuted.
Print Assumptions C54_scrollbar_refuted.
Print Assumptions C54_borders_refuted.
