(** * C89: what a style text and a skin document mean *)
From Coq Require Import Ascii String Permutation.
From Verif Require Import Base L_Base Demo M_Style M_Parse S_Parse L_Parse P_Parse M_Serde S_Serde P_Serde S_Config.
Set Implicit Arguments.
Open Scope list_scope.

(** ** Tokens *)

Lemma all_ok_good {A B E} (f : A -> result B E) l : forall bs, all_ok f l = Ok bs <-> all_good f l bs.
Proof.
  unfold all_good. induction l as [|a l IH]; intros bs; cbn [all_ok].
  - split; intros H; [injection H as <-; constructor | inversion H; reflexivity].
  - destruct (f a) as [b|e] eqn:F.
    + destruct (all_ok f l) as [r|e] eqn:R.
      * split; intros H.
        -- injection H as <-. constructor; [exact F|]. apply IH. reflexivity.
        -- inversion H; subst. assert (b = y) by congruence. subst y.
           match goal with X : Forall2 _ l _ |- _ => apply IH in X; injection X as -> end. reflexivity.
      * split; intros H; [discriminate|]. inversion H; subst.
        match goal with X : Forall2 _ l _ |- _ => apply IH in X; discriminate end.
    + split; intros H; [discriminate|]. inversion H; subst. congruence.
Qed.

Lemma all_ok_bad {A B E} (f : A -> result B E) l : forall e, all_ok f l = Err e <-> first_bad f l e.
Proof.
  unfold first_bad. induction l as [|a l IH]; intros e; cbn [all_ok].
  - split; intros H; [discriminate|]. destruct H as (b & x & r & H & _). destruct b; discriminate.
  - destruct (f a) as [b|e'] eqn:F.
    + destruct (all_ok f l) as [r|e'] eqn:R.
      * split; intros H; [discriminate|]. destruct H as (q & x & r' & H & X & G).
        destruct q as [|y q]; injection H as -> ->; [congruence|]. inversion G; subst.
        enough (Ok r = Err e) by discriminate. apply IH. exists q, x, r'. auto.
      * split; intros H.
        -- injection H as <-. destruct (proj1 (IH e') eq_refl) as (q & x & r' & -> & X & G).
           exists (a :: q), x, r'. split; [reflexivity|]. split; [exact X|]. constructor; [eauto|exact G].
        -- destruct H as (q & x & r' & H & X & G).
           destruct q as [|y q]; injection H as -> ->; [congruence|]. inversion G; subst.
           apply IH. exists q, x, r'. auto.
    + split; intros H.
      * injection H as <-. exists [], a, l. auto.
      * destruct H as (q & x & r' & H & X & G). destruct q as [|y q]; injection H as -> ->; [congruence|].
        inversion G; subst. destruct H1 as (z & Z). congruence.
Qed.

(** A style text is accepted exactly when all its tokens are; else its error is the one of its first bad token *)
Theorem C89_tokens k s :
  (forall ts, parse_style_tokens k s = Ok ts <-> all_good (parse_style_token k) (find_tokens k s) ts)
  /\ (forall e, parse_style_tokens k s = Err e <-> first_bad (parse_style_token k) (find_tokens k s) e).
Proof. split; intros; [apply all_ok_good | apply all_ok_bad]. Qed.

(** The tokens of a text are its words *)
Theorem C89_words k s ws : ascii_classes k -> words_text k s ws -> find_tokens k s = ws.
Proof.
  intros K.
  assert (SP : forall c, rx_space k c = true -> rx_plain k c = false) by (intros c H; unfold rx_plain; rewrite H; reflexivity).
  assert (B : forall b r, blanks k b -> find_tokens k (b ++ r) = find_tokens k r).
  { intros b r H. induction H as [|c b C H IH]; [reflexivity|]. cbn [app]. rewrite find_skip by (apply SP; exact C). exact IH. }
  assert (SW : forall w, simple_word k w -> @word_token k w).
  { intros w (A & F). split; [exact A|]. eapply Forall_impl; [|exact F]. intros c (X & Y & Z). unfold rx_plain. rewrite X. lia. }
  assert (W : forall w r, word k w -> r = [] \/ (exists c r', r = c :: r' /\ rx_space k c = true) ->
              find_tokens k (w ++ r) = w :: find_tokens k r).
  { intros w r [S|(name & inside & -> & N & I & F)] R.
    - apply SW in S. destruct S as (A & P). rewrite find_tokens_step.
      assert (E : plus (rx_plain k) (w ++ r) = Some (w, r)).
      { destruct R as [->|(c & r' & -> & C)].
        - rewrite app_nil_r. apply plus_all; assumption.
        - apply plus_app; [exact A|exact P|apply SP; exact C]. }
      rewrite E. replace (rx_group k r) with (@None (str * str)); [reflexivity|].
      destruct R as [->|(c & r' & -> & C)]; [reflexivity|]. unfold rx_group. cbn [one].
      replace (40 =? c)%N with false; [reflexivity|]. symmetry. apply N.eqb_neq. intros <-.
      rewrite (not_space K) in C by lia. discriminate.
    - apply (find_call K). exists name, inside. split; [reflexivity|]. split; [apply SW; exact N|]. split; [exact I|].
      eapply Forall_impl; [|exact F]. intros c H. unfold rx_inner. destruct H as [-> | [-> | ->]]; [reflexivity| |apply orb_true_r].
      rewrite orb_true_r. reflexivity. }
  induction 1 as [b H|b w H HW|b w c s ws H HW C _ IH].
  - rewrite <- (app_nil_r b). rewrite B by exact H. reflexivity.
  - rewrite B by exact H. rewrite <- (app_nil_r w). rewrite W by (auto || (rewrite ?app_nil_r; exact HW)). rewrite app_nil_r. reflexivity.
  - rewrite B by exact H. rewrite W by (try exact HW; right; eauto). rewrite find_skip by (apply SP; exact C). rewrite IH. reflexivity.
Qed.

(** ** Styles *)

Lemma cs_meaning ts : forall set st,
  let r := cs_of_tokens set st ts in
  fg r = (if set then fg st else match paints ts with Some c :: _ => Some c | _ => fg st end)
  /\ bg r = final (bg st) (map Some (somes (if set then paints ts else tl (paints ts))))
  /\ underline r = underline st
  /\ forall i, N.testbit (attrs r) i = true <-> N.testbit (attrs st) i = true \/ exists a, In (TAttribute a) ts /\ attr_bit a = i.
Proof.
  unfold paints, final. induction ts as [|t ts IH]; intros set st; cbv zeta.
  - cbn [cs_of_tokens map somes last tl]. refine (conj _ (conj _ (conj eq_refl _))).
    + destruct set; reflexivity.
    + destruct set; reflexivity.
    + intros i. split; [auto|]. intros [H|(a & [] & _)]. exact H.
  - assert (X : forall st', (exists a, t = TAttribute a /\ st' = cs_add_attr st a) \/ (attrs st' = attrs st /\ forall a, t <> TAttribute a) ->
      forall i, (N.testbit (attrs st') i = true \/ (exists a, In (TAttribute a) ts /\ attr_bit a = i))
                <-> (N.testbit (attrs st) i = true \/ exists a, In (TAttribute a) (t :: ts) /\ attr_bit a = i)).
    { intros st' [(a & -> & ->)|(E & NA)] i.
      - unfold cs_add_attr, attrs_set. cbn [attrs]. rewrite N.setbit_eqb. split.
        + intros [H|(b & I & Q)].
          * apply orb_prop in H. destruct H as [H|H]; [|left; exact H]. right. exists a. split; [left; reflexivity|].
            apply N.eqb_eq. exact H.
          * right. exists b. split; [right; exact I|exact Q].
        + intros [H|(b & [I|I] & Q)].
          * left. rewrite H. apply orb_true_r.
          * injection I as ->. left. rewrite Q, N.eqb_refl. reflexivity.
          * right. eauto.
      - rewrite E. split.
        + intros [H|(b & I & Q)]; [auto|]. right. exists b. split; [right; exact I|exact Q].
        + intros [H|(b & [I|I] & Q)]; [auto|destruct (NA _ I)|right; eauto]. }
    destruct t; cbn [cs_of_tokens map paint somes tl].
    all: try (destruct (IH set st) as (A & B & C & D); refine (conj _ (conj _ (conj _ _)));
      [exact A|exact B|exact C|intros i; rewrite D; apply X; right; split; [reflexivity|discriminate]]).
    + assert (L : forall (l : list (option Color)) a b, last (a :: l) b = last l a).
      { clear. induction l as [|x l IH]; intros a b; [reflexivity|].
        change (last (a :: x :: l) b) with (last (x :: l) b). rewrite IH, IH. reflexivity. }
      destruct set.
      * destruct (IH true (cs_set_bg st c)) as (A & B & C & D). cbn [somes map]. refine (conj _ (conj _ (conj _ _))).
        -- exact A.
        -- rewrite B, L. reflexivity.
        -- exact C.
        -- intros i. rewrite D. apply X. right. split; [reflexivity|discriminate].
      * destruct (IH true (cs_set_fg st c)) as (A & B & C & D). refine (conj _ (conj _ (conj _ _))); [exact A|exact B|exact C|].
        intros i. rewrite D. apply X. right. split; [reflexivity|discriminate].
    + destruct (IH set (cs_add_attr st a)) as (A & B & C & D). refine (conj _ (conj _ (conj _ _))); [exact A|exact B|exact C|].
      intros i. rewrite D. apply X. left. eauto.
    + destruct (IH true st) as (A & B & C & D). destruct set.
      * cbn [somes map]. refine (conj _ (conj _ (conj _ _))); [exact A|exact B|exact C|].
        intros i. rewrite D. apply X. right. split; [reflexivity|discriminate].
      * refine (conj _ (conj _ (conj _ _))); [exact A|exact B|exact C|].
        intros i. rewrite D. apply X. right. split; [reflexivity|discriminate].
Qed.

Lemma cs_means ts : means_cs ts (cs_from_tokens ts).
Proof.
  destruct (cs_meaning ts false cs_default) as (A & B & C & D). unfold cs_from_tokens. split.
  - rewrite A. unfold first, hd. destruct (paints ts) as [|[c|] r]; reflexivity.
  - exact B.
  - exact C.
  - intros i. rewrite D. cbn [attrs cs_default]. rewrite N.bits_0. split; [intros [H|H]; [discriminate|exact H] | auto].
Qed.

Lemma ls_meaning ts : forall al l r, let '(al', l', r') := ls_of_tokens al l r ts in
  al' = final al (somes (map align_of ts))
  /\ unwrap_or 0%N l' = (match l with Some n => n | None => first 0%N (somes (map dimension_of ts)) end)
  /\ unwrap_or 0%N r' = final (unwrap_or 0%N r) (match l with Some _ => somes (map dimension_of ts) | None => tl (somes (map dimension_of ts)) end).
Proof.
  assert (L : forall A (l : list A) a b, last (a :: l) b = last l a).
  { clear. intros A. induction l as [|x l IH]; intros a b; [reflexivity|].
    change (last (a :: x :: l) b) with (last (x :: l) b). rewrite IH, IH. reflexivity. }
  unfold final. induction ts as [|t ts IH]; intros al l r; cbn [ls_of_tokens map somes tl].
  - destruct l; repeat split; reflexivity.
  - destruct t; cbn [align_of dimension_of somes tl]; try apply IH.
    + specialize (IH a l r). destruct (ls_of_tokens a l r ts) as [[al' l'] r']. rewrite L. exact IH.
    + destruct l as [m|]; cbn [is_some].
      * specialize (IH al (Some m) (Some n)). destruct (ls_of_tokens al (Some m) (Some n) ts) as [[al' l'] r']. rewrite L. exact IH.
      * specialize (IH al (Some n) r). destruct (ls_of_tokens al (Some n) r ts) as [[al' l'] r']. exact IH.
Qed.

Lemma ls_means ts : means_ls ts (ls_from_tokens ts).
Proof.
  pose proof (ls_meaning ts Unspecified None None) as H. unfold ls_from_tokens.
  destruct (ls_of_tokens Unspecified None None ts) as [[al l] r]. destruct H as (A & B & C).
  split; cbn [ls_cs ls_align left_margin right_margin].
  - apply cs_means.
  - exact A.
  - rewrite N2Nat.id. exact B.
  - rewrite N2Nat.id. exact C.
Qed.

Lemma sc_means d ts : means_sc d ts (sc_new (cs_from_tokens ts) (unwrap_or d (first_char ts))).
Proof.
  split.
  - apply cs_means.
  - cbn [sc_char sc_new]. induction ts as [|t ts IH]; [reflexivity|]. destruct t; cbn [first_char map char_of somes]; try exact IH. reflexivity.
  - reflexivity.
Qed.

(** Compound styles, line styles and styled chars: what an accepted text means; the error of another one *)
Theorem C89_compound_style k s :
  match parse_compound_style k s with
  | Ok cs => exists ts, all_good (parse_style_token k) (find_tokens k s) ts /\ means_cs ts cs
  | Err e => first_bad (parse_style_token k) (find_tokens k s) e
  end.
Proof.
  unfold parse_compound_style. destruct (C89_tokens k s) as (A & B). destruct (parse_style_tokens k s) as [ts|e]; cbn [rmap].
  - exists ts. split; [apply A; reflexivity | apply cs_means].
  - apply B. reflexivity.
Qed.
Theorem C89_line_style k s :
  match parse_line_style k s with
  | Ok ls => exists ts, all_good (parse_style_token k) (find_tokens k s) ts /\ means_ls ts ls
  | Err e => first_bad (parse_style_token k) (find_tokens k s) e
  end.
Proof.
  unfold parse_line_style. destruct (C89_tokens k s) as (A & B). destruct (parse_style_tokens k s) as [ts|e]; cbn [rmap].
  - exists ts. split; [apply A; reflexivity | apply ls_means].
  - apply B. reflexivity.
Qed.
Theorem C89_styled_char k s d :
  match parse_styled_char k s d with
  | Ok sc => exists ts, all_good (parse_style_token k) (find_tokens k s) ts /\ means_sc d ts sc
  | Err e => first_bad (parse_style_token k) (find_tokens k s) e
  end.
Proof.
  unfold parse_styled_char. destruct (C89_tokens k s) as (A & B). destruct (parse_style_tokens k s) as [ts|e]; cbn [rmap].
  - exists ts. split; [apply A; reflexivity | apply sc_means].
  - apply B. reflexivity.
Qed.

(** The meaning leaves no choice *)
Theorem C89_unique ts a b : means_cs ts a -> means_cs ts b -> a = b.
Proof.
  intros [A B C D] [A' B' C' D']. destruct a as [f g u t], b as [f' g' u' t']. cbn [fg bg underline attrs] in *.
  f_equal; try congruence. apply N.bits_inj. intros i. specialize (D i). specialize (D' i).
  destruct (N.testbit t i), (N.testbit t' i); try reflexivity; [symmetry|]; [apply D'; apply D; reflexivity | apply D; apply D'; reflexivity].
Qed.

Example C89_style_example :
  words_text demo_classes (lit " bold  rgb(1, 2, 3) none  12 red italic center 5 x")
    (map lit ["bold"; "rgb(1, 2, 3)"; "none"; "12"; "red"; "italic"; "center"; "5"; "x"]%string)
  /\ parse_line_style demo_classes (lit " bold  rgb(1, 2, 3) none  12 red italic center 5 x")
     = Ok (mkLS (mkCS (Some (Rgb 1 2 3)) (Some Red) None 20) Center 12 5)
  /\ parse_styled_char demo_classes (lit "none blue x gray(30) y blu") 42 = Err (InvalidColor (InvalidGreyLevel 30)).
Proof.
  refine (conj _ (conj _ _)); [|vm_compute; reflexivity|vm_compute; reflexivity].
  assert (S : forall w, negb (is_nil w) && forallb (fun c => negb (rx_space demo_classes c) && negb (c =? 40)%N && negb (c =? 41)%N) w = true ->
              word demo_classes w).
  { intros w H. apply andb_prop in H. destruct H as (A & B). left. split; [intros ->; discriminate A|].
    apply Forall_forall. intros c I. rewrite forallb_forall in B. specialize (B c I). destruct (rx_space demo_classes c); [discriminate B|]. cbn in B. lia. }
  assert (BL : forall w, forallb (rx_space demo_classes) w = true -> blanks demo_classes w).
  { intros w H. apply Forall_forall. intros c I. rewrite forallb_forall in H. exact (H c I). }
  refine (@words_cons demo_classes (lit " ") (lit "bold") 32 (lit " rgb(1, 2, 3) none  12 red italic center 5 x") _ (BL _ _) (S _ _) _ _); try reflexivity.
  refine (@words_cons demo_classes (lit " ") (lit "rgb(1, 2, 3)") 32 (lit "none  12 red italic center 5 x") _ (BL _ _) _ _ _); try reflexivity.
  { right. exists (lit "rgb"), (lit "1, 2, 3"). split; [reflexivity|]. split; [|split; [discriminate|]].
    - split; [discriminate|]. apply Forall_forall. intros c I. cbn in I. destruct I as [<-|[<-|[<-|[]]]]; repeat split; discriminate.
    - apply Forall_forall. intros c I. cbn in I. repeat (destruct I as [<-|I]; [vm_compute; auto|]). destruct I. }
  refine (@words_cons demo_classes [] (lit "none") 32 (lit " 12 red italic center 5 x") _ (BL _ _) (S _ _) _ _); try reflexivity.
  refine (@words_cons demo_classes (lit " ") (lit "12") 32 (lit "red italic center 5 x") _ (BL _ _) (S _ _) _ _); try reflexivity.
  refine (@words_cons demo_classes [] (lit "red") 32 (lit "italic center 5 x") _ (BL _ _) (S _ _) _ _); try reflexivity.
  refine (@words_cons demo_classes [] (lit "italic") 32 (lit "center 5 x") _ (BL _ _) (S _ _) _ _); try reflexivity.
  refine (@words_cons demo_classes [] (lit "center") 32 (lit "5 x") _ (BL _ _) (S _ _) _ _); try reflexivity.
  refine (@words_cons demo_classes [] (lit "5") 32 (lit "x") _ (BL _ _) (S _ _) _ _); try reflexivity.
  refine (@words_last demo_classes [] (lit "x") (BL _ _) (S _ _)); reflexivity.
Qed.

(** ** Documents *)

(** A part is changed, the other ones aren't *)
Definition part_update (p : nat) (u : MadSkin -> MadSkin) : Prop :=
  match p with
  | 0 => exists f, forall s, u s = k_bold s (f (bold s))
  | 1 => exists f, forall s, u s = k_italic s (f (italic s))
  | 2 => exists f, forall s, u s = k_strikeout s (f (strikeout s))
  | 3 => exists f, forall s, u s = k_inline_code s (f (inline_code s))
  | 4 => exists f, forall s, u s = k_ellipsis s (f (ellipsis s))
  | 5 => exists f, forall s, u s = k_bullet s (f (bullet s))
  | 6 => exists f, forall s, u s = k_quote_mark s (f (quote_mark s))
  | 7 => exists f, forall s, u s = k_rule s (f (horizontal_rule s))
  | 8 => exists f, forall s, u s = k_scrollbar s (f (scrollbar s))
  | 9 => exists f, forall s, u s = k_paragraph s (f (paragraph s))
  | 10 => exists f, forall s, u s = k_code_block s (f (code_block s))
  | 11 => exists f, forall s, u s = k_table s (f (table s))
  | 12 => exists f, forall s, u s = set_headers s (f (headers s))
  | 13 => exists f, forall s, u s = k_tbc s (f (table_border_chars s))
  | _ => forall s, u s = s
  end.
Fixpoint part_in (key : str) (l : list (list string)) : nat :=
  match l with
  | [] => 0
  | names :: r => if is_key key names then 0 else S (part_in key r)
  end.

Lemma part_commute p q u v : part_update p u -> part_update q v -> p <> q \/ 14 <= p -> forall s, u (v s) = v (u s).
Proof.
  intros U V H s.
  do 14 (destruct p as [|p]; [do 14 (destruct q as [|q]; [cbn in U, V; try (exfalso; lia); destruct U as (f & U), V as (g & V); rewrite !U, !V; reflexivity|]); cbn in U, V; rewrite !V; reflexivity|]).
  cbn in U. rewrite !U. reflexivity.
Qed.

Lemma entry_effect k key v : (forall s, de_entry k s key v = None)
  \/ exists u, part_update (part_in key spellings) u /\ forall s, de_entry k s key v = Some (u s).
Proof.
  unfold de_entry, spellings. cbn [part_in].
  Ltac entry_cs := match goal with |- context [option_map _ ?d] => destruct d as [x|]; cbn [option_map]; [right; eexists; split; [|intros s; reflexivity]; cbn [part_update] | left; reflexivity] end.
  destruct (is_key key ["bold"%string]); [entry_cs; exists (fun _ => x); reflexivity|].
  destruct (is_key key ["italic"%string]); [entry_cs; exists (fun _ => x); reflexivity|].
  destruct (is_key key ["strikeout"%string]); [entry_cs; exists (fun _ => x); reflexivity|].
  destruct (is_key key ["inline_code"; "inline-code"]%string); [entry_cs; exists (fun _ => x); reflexivity|].
  destruct (is_key key ["ellipsis"%string]); [entry_cs; exists (fun _ => x); reflexivity|].
  destruct (is_key key ["bullet"%string]); [entry_cs; exists (fun _ => x); reflexivity|].
  destruct (is_key key ["quote_mark"; "quote"; "quote-mark"]%string); [entry_cs; exists (fun _ => x); reflexivity|].
  destruct (is_key key ["horizontal_rule"; "horizontal-rule"; "rule"]%string); [entry_cs; exists (fun _ => x); reflexivity|].
  destruct (is_key key ["scrollbar"%string]); [entry_cs; exists (fun _ => into_scrollbar_style x); reflexivity|].
  destruct (is_key key ["paragraph"%string]); [entry_cs; exists (fun _ => x); reflexivity|].
  destruct (is_key key ["code_block"; "code-block"]%string); [entry_cs; exists (fun _ => x); reflexivity|].
  destruct (is_key key ["table"%string]); [entry_cs; exists (fun _ => x); reflexivity|].
  destruct (is_key key ["headers"%string]); [entry_cs; exists (headers_apply x); reflexivity|].
  destruct (is_key key ["table_border_chars"; "table-border-chars"]%string).
  - entry_cs. destruct (tbc_by_key x) as [c|]; [exists (fun _ => c); reflexivity|]. exists (fun c => c). intros []; reflexivity.
  - entry_cs. reflexivity.
Qed.

Lemma part_same a b : part_in a spellings = part_in b spellings -> part_in a spellings < 14 -> same_part a b.
Proof.
  assert (G : forall key l, part_in key l < length l -> exists names, nth_error l (part_in key l) = Some names /\ is_key key names = true).
  { intros key. induction l as [|names l IH]; cbn [part_in length]; intros H; [lia|].
    destruct (is_key key names) eqn:E; [exists names; auto|]. apply IH. lia. }
  assert (I : forall key names, is_key key names = true -> In key (map lit names)).
  { intros key names H. apply existsb_exists in H. destruct H as (n & J & E). apply str_eqb_eq in E. subst key. apply in_map. exact J. }
  intros E H. destruct (G a spellings H) as (na & A & KA). rewrite E in H. destruct (G b spellings H) as (nb & B & KB).
  rewrite E in A. rewrite A in B. injection B as <-. exists na. split; [eapply nth_error_In; exact A|]. auto.
Qed.

Lemma entries_commute k a va b vb s : ~ same_part a b ->
  obind (de_entry k s a va) (fun s' => de_entry k s' b vb) = obind (de_entry k s b vb) (fun s' => de_entry k s' a va).
Proof.
  intros N. destruct (entry_effect k a va) as [A|(u & U & A)], (entry_effect k b vb) as [B|(w & W & B)].
  - rewrite A, B. reflexivity.
  - rewrite A, B. cbn [obind]. rewrite A. reflexivity.
  - rewrite A, B. cbn [obind]. rewrite B. reflexivity.
  - rewrite A, B. cbn [obind]. rewrite A, B. f_equal. symmetry. apply (@part_commute _ _ u w U W).
    destruct (Nat.eq_dec (part_in a spellings) (part_in b spellings)) as [E|E]; [|left; exact E]. right.
    destruct (le_lt_dec 14 (part_in a spellings)) as [H|H]; [exact H|]. destruct N. apply part_same; assumption.
Qed.

Lemma same_part_sym a b : same_part a b -> same_part b a.
Proof. intros (names & I & A & B). exists names. auto. Qed.

Lemma each_once_perm l l' : Permutation l l' -> each_once l -> each_once l'.
Proof.
  induction 1 as [|[key v] l l' P IH|[a va] [b vb] l|l l' l'' _ IH _ IH']; intros H.
  - exact H.
  - inversion H; subst. constructor; [apply IH; assumption|]. intros e I. apply H4. eapply Permutation_in; [apply Permutation_sym; exact P|exact I].
  - inversion H as [|? ? ? H1 H2]; subst. inversion H1 as [|? ? ? H3 H4]; subst. constructor; [constructor; [exact H3|]|].
    + intros e I. apply H2. right. exact I.
    + intros e [<-|I]; [|apply H4; exact I]. cbn [fst]. intros S. apply same_part_sym in S. apply (H2 (a, va)); [left; reflexivity | exact S].
  - auto.
Qed.

(** When no part is set twice, the order of the entries doesn't matter *)
Theorem C89_order k l l' : each_once l -> Permutation l l' -> de_skin k (VMap l) = de_skin k (VMap l').
Proof.
  intros H P. cbn [de_skin]. f_equal. generalize skin_default as s. revert H.
  induction P as [|[key v] l l' P IH|[a va] [b vb] l|l l' l'' P IH P' IH']; intros H s.
  - reflexivity.
  - inversion H; subst. cbn [de_entries]. destruct (de_entry k s key v); [apply IH; assumption|reflexivity].
  - inversion H as [|? ? ? H1 H2]; subst.
    assert (N : ~ same_part b a) by (apply (H2 (a, va)); left; reflexivity).
    pose proof (@entries_commute k b vb a va s N) as E.
    cbn [de_entries]. 
    assert (X : forall (o : de MadSkin) (g h : MadSkin -> de MadSkin), obind o (fun s' => obind (g s') h) = obind (obind o g) h) by (intros [x|] g h; reflexivity).
    rewrite !X, E. reflexivity.
  - rewrite IH by exact H. apply IH'. eapply each_once_perm; eauto.
Qed.

(** A document is accepted exactly when each of its entries is *)
Theorem C89_document k l :
  (exists full, de_skin k (VMap l) = Some full) <-> forall e, In e l -> exists full, de_skin k (VMap [e]) = Some full.
Proof.
  cbn [de_skin]. generalize skin_default at 1 as s. induction l as [|[key v] l IH]; intros s; cbn [de_entries].
  - split; [intros _ e [] | eexists; reflexivity].
  - destruct (entry_effect k key v) as [A|(u & U & A)].
    + rewrite A. cbn [obind option_map]. split; [intros (full & H); discriminate|]. intros H. destruct (H (key, v)) as (full & E); [left; reflexivity|].
      cbn [de_entries] in E. rewrite A in E. discriminate.
    + rewrite A. cbn [obind]. rewrite IH. split.
      * intros H e [<-|I]; [|exact (H e I)]. cbn [de_entries]. rewrite A. cbn [obind option_map]. eauto.
      * intros H e I. apply H. right. exact I.
Qed.

Lemma entry_const k key v u w : part_in key spellings < 12 -> part_update (part_in key spellings) u ->
  (forall s, de_entry k s key v = Some (w s)) -> forall s, w (u s) = w s.
Proof.
  unfold de_entry, spellings. cbn [part_in]. intros H U W s. generalize (W (u s)) (W s). clear W.
  Ltac const_cs U s := match goal with |- context [option_map _ ?d] => destruct d as [x|]; cbn [option_map]; [|intros; discriminate] end;
    intros X Y; injection X as <-; injection Y as <-; cbn [part_update] in U; destruct U as (f & ->); reflexivity.
  destruct (is_key key ["bold"%string]); [const_cs U s|].
  destruct (is_key key ["italic"%string]); [const_cs U s|].
  destruct (is_key key ["strikeout"%string]); [const_cs U s|].
  destruct (is_key key ["inline_code"; "inline-code"]%string); [const_cs U s|].
  destruct (is_key key ["ellipsis"%string]); [const_cs U s|].
  destruct (is_key key ["bullet"%string]); [const_cs U s|].
  destruct (is_key key ["quote_mark"; "quote"; "quote-mark"]%string); [const_cs U s|].
  destruct (is_key key ["horizontal_rule"; "horizontal-rule"; "rule"]%string); [const_cs U s|].
  destruct (is_key key ["scrollbar"%string]); [const_cs U s|].
  destruct (is_key key ["paragraph"%string]); [const_cs U s|].
  destruct (is_key key ["code_block"; "code-block"]%string); [const_cs U s|].
  destruct (is_key key ["table"%string]); [const_cs U s|].
  exfalso. lia.
Qed.

Lemma part_follow p q u w : part_update p u -> part_update q w -> forall s, exists u', part_update p u' /\ w (u s) = u' (w s).
Proof.
  intros U W s. destruct (Nat.eq_dec p q) as [<-|E].
  - do 14 (destruct p as [|p]; [cbn in U, W; destruct U as (f & U), W as (g & W); rewrite W, U, W; eexists; split; [cbn; eexists (fun _ => _); intros s'; reflexivity | cbv beta; reflexivity]|]).
    cbn in U. exists (fun s => s). split; [cbn; reflexivity|]. rewrite U. reflexivity.
  - exists u. split; [exact U|]. symmetry. apply (@part_commute _ _ u w U W). left. exact E.
Qed.

Lemma entries_follow k l : forall p u s r, part_update p u -> de_entries k (u s) l = Some r ->
  exists r' u', part_update p u' /\ de_entries k s l = Some r' /\ r = u' r'.
Proof.
  induction l as [|[key v] l IH]; intros p u s r U H; cbn [de_entries] in *.
  - injection H as <-. eauto.
  - destruct (entry_effect k key v) as [A|(w & W & A)]; rewrite A in *; cbn [obind] in *; [discriminate|].
    destruct (@part_follow _ _ u w U W s) as (u' & U' & E). rewrite E in H. exact (IH p u' (w s) r U' H).
Qed.

Lemma same_part_in a b : same_part a b -> part_in a spellings = part_in b spellings.
Proof.
  intros (names & I & A & B).
  assert (G : forallb (fun names => forallb (fun a => forallb (fun b => part_in (lit a) spellings =? part_in (lit b) spellings) names) names) spellings = true)
    by (vm_compute; reflexivity).
  rewrite forallb_forall in G. specialize (G names I). apply in_map_iff in A. destruct A as (x & <- & A). apply in_map_iff in B. destruct B as (y & <- & B).
  rewrite forallb_forall in G. specialize (G x A). rewrite forallb_forall in G. specialize (G y B). apply Nat.eqb_eq. exact G.
Qed.

(** A part set twice has its last value, except for the headers, which can be completed, and the borders, which aren't
    changed by an unknown name *)
Theorem C89_last k a v a' v' before between after full :
  same_part a a' -> ~ same_part a (lit "headers") -> ~ same_part a (lit "table_border_chars") ->
  de_skin k (VMap (before ++ (a, v) :: between ++ (a', v') :: after)) = Some full ->
  de_skin k (VMap (before ++ between ++ (a', v') :: after)) = Some full.
Proof.
  intros S H1 H2. assert (P : part_in a' spellings < 12).
  { pose proof (same_part_in S) as E. rewrite <- E.
    destruct S as (names & I & A & _).
    destruct (le_lt_dec 12 (part_in a spellings)) as [L|L]; [exfalso|exact L].
    destruct (Nat.eq_dec (part_in a spellings) 12) as [E'|N12].
    - apply H1. apply part_same; [rewrite E'; reflexivity|lia].
    - destruct (Nat.eq_dec (part_in a spellings) 13) as [E'|N13].
      + apply H2. apply part_same; [rewrite E'; reflexivity|lia].
      + apply in_map_iff in A. destruct A as (x & <- & A).
        assert (G : forallb (fun names => forallb (fun a => part_in (lit a) spellings <? 14) names) spellings = true) by (vm_compute; reflexivity).
        rewrite forallb_forall in G. specialize (G names I). rewrite forallb_forall in G. specialize (G x A).
        apply Nat.ltb_lt in G. clear - G L N12 N13. lia. }
  cbn [de_skin]. generalize skin_default as s. induction before as [|[b vb] before IH]; intros s H; cbn [app de_entries] in *.
  - destruct (entry_effect k a v) as [A|(u & U & A)]; rewrite A in H; cbn [obind] in H; [discriminate|].
    assert (X : forall l r s, de_entries k s (l ++ r) = obind (de_entries k s l) (fun s' => de_entries k s' r)).
    { clear. induction l as [|[key v] l IH]; intros r s; [reflexivity|]. cbn [app de_entries]. destruct (de_entry k s key v); [apply IH|reflexivity]. }
    rewrite X in *. destruct (de_entries k (u s) between) as [m|] eqn:M; cbn [obind] in H; [|discriminate].
    destruct (@entries_follow k between _ u s m U M) as (m' & u' & U' & M' & ->). rewrite M'. cbn [obind de_entries] in *.
    rewrite (same_part_in S) in U'.
    destruct (entry_effect k a' v') as [B|(w & W & B)]; rewrite B in *; cbn [obind] in *; [discriminate|].
    rewrite <- (@entry_const k a' v' u' w P U' B m'). exact H.
  - destruct (de_entry k s b vb) as [s'|]; cbn [obind] in *; [|discriminate]. apply IH. exact H.
Qed.

(** The scrollbar is a text, or a map with one track and one thumb *)
Theorem C89_scrollbar k v d : de_sb_def k v = Some d <->
  (exists s sc, v = VStr s /\ parse_styled_char k s 42 = Ok sc /\ d = Simple sc)
  \/ (exists l st sh tr th, v = VMap l /\ d = Rich tr th /\ parse_styled_char k st 42 = Ok tr /\ parse_styled_char k sh 42 = Ok th
      /\ (exists a b, l = a ++ (lit "track", VStr st) :: b /\ ~ In (lit "track") (map fst (a ++ b)))
      /\ (exists a b, l = a ++ (lit "thumb", VStr sh) :: b /\ ~ In (lit "thumb") (map fst (a ++ b)))).
Proof.
  assert (F : forall key l w, field key l = Some w <-> exists a b, l = a ++ (key, w) :: b /\ ~ In key (map fst (a ++ b))).
  { intros key l w. unfold field.
    assert (Z : forall l, filter (fun e : str * value => str_eqb key (fst e)) l = [] <-> ~ In key (map fst l)).
    { clear. induction l as [|[x v] l IH]; cbn [filter map fst In]; [tauto|]. destruct (str_eqb key x) eqn:E.
      - apply str_eqb_eq in E. subst x. split; [discriminate|]. intros H. destruct H. left. reflexivity.
      - rewrite IH. split; intros H; [|tauto]. intros [X|X]; [|exact (H X)]. subst x. rewrite (proj2 (str_eqb_eq key key) eq_refl) in E. discriminate. }
    split.
    - induction l as [|[x v'] l IH]; cbn [filter fst]; [discriminate|]. destruct (str_eqb key x) eqn:E.
      + destruct (filter (fun e : str * value => str_eqb key (fst e)) l) as [|e r] eqn:R; [|discriminate].
        intros H. injection H as <-. apply str_eqb_eq in E. subst x. exists [], l. split; [reflexivity|]. apply Z. exact R.
      + intros H. destruct (IH H) as (a & b & -> & N). exists ((x, v') :: a), b. split; [reflexivity|]. cbn [app map fst In].
        intros [X|X]; [|exact (N X)]. subst x. rewrite (proj2 (str_eqb_eq key key) eq_refl) in E. discriminate.
    - intros (a & b & -> & N). rewrite map_app in N.
      assert (Na : ~ In key (map fst a)) by (intros X; apply N; apply in_or_app; auto).
      assert (Nb : ~ In key (map fst b)) by (intros X; apply N; apply in_or_app; auto).
      rewrite filter_app. apply Z in Na. apply Z in Nb. rewrite Na. cbn [app filter fst]. rewrite (proj2 (str_eqb_eq key key) eq_refl), Nb. reflexivity. }
  assert (S : forall w sc, de_sc k w = Some sc <-> exists s, w = VStr s /\ parse_styled_char k s 42 = Ok sc).
  { intros w sc. unfold de_sc. destruct w as [s|l|l]; cbn [de_string obind].
    - destruct (parse_styled_char k s 42) as [x|e] eqn:PS; cbn [of_result]; split; intros H; try discriminate.
      + injection H as <-. eauto.
      + destruct H as (t & T & E). injection T as <-. congruence.
      + destruct H as (t & T & E). injection T as <-. congruence.
    - split; [discriminate|]. intros (s & H & _). discriminate.
    - split; [discriminate|]. intros (s & H & _). discriminate. }
  unfold de_sb_def. destruct (de_sc k v) as [sc|] eqn:D.
  - apply S in D. destruct D as (s & -> & D). split.
    + intros H. injection H as <-. left. eauto.
    + intros [(s' & sc' & E & P & ->)|(l & st & sh & tr & th & E & _)]; [|discriminate]. injection E as <-. congruence.
  - split.
    + destruct v as [s|l|l]; try discriminate. intros H.
      destruct (field (lit "track") l) as [a|] eqn:A; cbn [obind] in H; [|discriminate].
      destruct (de_sc k a) as [tr|] eqn:TR; cbn [obind] in H; [|discriminate].
      destruct (field (lit "thumb") l) as [b|] eqn:B; cbn [obind] in H; [|discriminate].
      destruct (de_sc k b) as [th|] eqn:TH; cbn [obind] in H; [|discriminate]. injection H as <-.
      apply S in TR. destruct TR as (st & -> & TR). apply S in TH. destruct TH as (sh & -> & TH).
      right. exists l, st, sh, tr, th. apply F in A. apply F in B. auto 10.
    + intros [(s' & sc' & -> & P & ->)|(l & st & sh & tr & th & -> & -> & TR & TH & A & B)].
      * assert (X : de_sc k (VStr s') = Some sc') by (apply S; eauto). congruence.
      * apply F in A. apply F in B. rewrite A, B. cbn [obind].
        rewrite (proj2 (S (VStr st) tr)) by eauto. cbn [obind]. rewrite (proj2 (S (VStr sh) th)) by eauto. reflexivity.
Qed.

Definition doc : list (str * value) :=
  [ (lit "bold", VStr (lit "red bold")); (lit "headers", VSeq [VStr (lit "blue"); VStr (lit "center 2")]);
    (lit "rule", VStr (lit "x gray(4)")); (lit "scrollbar", VMap [(lit "thumb", VStr (lit "y red")); (lit "color", VSeq []); (lit "track", VStr (lit "z"))]);
    (lit "unknown", VStr (lit "nothing")) ].
Example C89_document_example :
  each_once doc
  /\ (exists s, de_skin demo_classes (VMap doc) = Some (s, []) /\ bold s = mkCS (Some Red) None None 4
       /\ map left_margin (headers s) = [0; 2; 0; 0; 0; 0; 0; 0] /\ sc_char (horizontal_rule s) = 120%N /\ sc_char (thumb (scrollbar s)) = 121%N
       /\ de_skin demo_classes (VMap (rev doc)) = Some (s, []))
  /\ de_skin demo_classes (VMap (doc ++ [(lit "italic", VStr (lit "rod"))])) = None
  /\ de_skin demo_classes (VMap ((lit "bold", VStr (lit "blue")) :: doc)) = de_skin demo_classes (VMap doc).
Proof.
  refine (conj _ (conj _ (conj _ _))); try (vm_compute; reflexivity).
  - assert (N : forall a b, existsb (fun names => is_key a names && is_key b names) spellings = false -> ~ same_part a b).
    { intros a b H (names & I & A & B). enough (T : existsb (fun names => is_key a names && is_key b names) spellings = true) by congruence.
      apply existsb_exists. exists names. split; [exact I|]. unfold is_key.
      apply in_map_iff in A. destruct A as (x & <- & A). apply in_map_iff in B. destruct B as (y & <- & B).
      apply andb_true_intro. split; apply existsb_exists; [exists x|exists y]; (split; [assumption|]); apply str_eqb_eq; reflexivity. }
    unfold doc. repeat (constructor; [|intros e I; cbn [In] in I; repeat (destruct I as [<-|I]; [apply N; vm_compute; reflexivity|]); destruct I]).
    constructor.
  - eexists. split; [vm_compute; reflexivity|]. repeat split; vm_compute; reflexivity.
Qed.

Print Assumptions C89_tokens.
Print Assumptions C89_words.
Print Assumptions C89_compound_style.
Print Assumptions C89_line_style.
Print Assumptions C89_styled_char.
Print Assumptions C89_unique.
Print Assumptions C89_order.
Print Assumptions C89_document.
Print Assumptions C89_last.
Print Assumptions C89_scrollbar.
