(** * What is read on the terminal is the whole text (C101) *)
From Verif Require Import Base L_Base M_Style M_Fit M_Wrap M_TblFit S_Wrap M_Text S_Text L_Text L_Text2 M_Fitter M_View S_View M_Render S_Render L_Render M_Area S_Input S_Pen S_Area S_Paint S_Border S_Read S_Cells S_Local S_Whole L_Clean L_View Demo.
From Verif Require Import P_Wrap P_Text P_Render P_Local P_Area P_Paint P_Read P_Border P_Cells.
From Verif Require P_Block L_Wrap.
Set Implicit Arguments.
Open Scope nat_scope.

(** ** The lines made for a source line *)

Lemma thinned_shrunk u A (s d : list (char * A)) : thinned u s d -> shrunk u (map fst s) (map fst d).
Proof. induction 1 as [|c s d _ IH|c s d Hc _ IH]; cbn [map]; constructor; auto. Qed.
Lemma shrunk_refl u s : shrunk u s s.
Proof. induction s; constructor; assumption. Qed.
Definition kinds_of (kind : CompositeKind) (fcs : list FmtComposite) : Prop :=
  exists first others, fcs = first :: others /\ fc_kind first = kind /\ Forall (fun f => fc_kind f = next_kind kind) others.
(** How the lines [g] are made for [l]: [q] has the widths of the columns of the table, or the width of the block *)
Definition made (u : unicode) (k : MadSkin) (w : nat) (l : MLine) (g : list FmtLine) (q : list nat * nat) : Prop :=
  match l with
  | MNormal c => exists fcs, g = map Normal fcs /\ kinds_of (kind_of (mc_style c)) fcs
      /\ thinned u (S_Wrap.styled (mc_compounds c)) (flat_map (fun f => S_Wrap.styled (fc_compounds f)) fcs)
      /\ (of_code l = true -> exists vl, fcs = [mkFC KCode (mc_compounds c) vl (Some (mkSpacing (snd q) ALeft))] /\ vl = sumw (chw u) (text_of (mc_compounds c)) /\ vl <= snd q)
  | MTableRow _ | MTableRule _ => shows_source u (fst q) l g /\ Forall (has_columns (fst q)) g /\ Forall (line_in_room u k) g
      /\ fst q <> [] /\ table_line_width (fst q) <= w /\ match l with MTableRow cells => length cells <= length (fst q) | _ => True end
  | _ => g = [HorizontalRule]
  end.
Lemma made_rows u k w l g q : made u k w l g q -> 1 <= length g.
Proof.
  destruct l as [c|cells|als| |]; cbn [made shows_source].
  - intros (fcs & -> & (f & o & -> & _) & _). cbn. lia.
  - intros ((H & _) & _). exact H.
  - intros ((r & ->) & _). cbn. lia.
  - intros ->. cbn. lia.
  - intros ->. cbn. lia.
Qed.
Lemma flat_text (fcs : list FmtComposite) : map fst (flat_map (fun l => S_Wrap.styled (fc_compounds l)) fcs) = flat_map (fun f => text_of (fc_compounds f)) fcs.
Proof. induction fcs as [|f fcs IH]; [reflexivity|]. cbn [flat_map]. rewrite map_app, IH. f_equal. symmetry. apply text_styled. Qed.
Lemma line_made u k um w l t q : of_table l = false -> of_code l = false -> from_text u k um [l] (Some w) = Ret t -> made u k w l (txt_lines t) q.
Proof.
  intros NT NC E. destruct l as [c|cells|als| |]; try discriminate NT; unfold from_text in E; cbn [map line_from made] in *.
  2,3: (replace (fix_all_tables u k [HorizontalRule] w) with (Ret [HorizontalRule]) in E by reflexivity); cbn [bind justify_blocks] in E; change (justify_blocks [HorizontalRule]) with [HorizontalRule] in E;
    cbn [hard_wrap_lines bind option_map] in E; (destruct (3 <=? w); injection E as <-; reflexivity).
  set (fc := fc_from u k c) in *. assert (K : fc_kind fc = kind_of (mc_style c) /\ fc_compounds fc = mc_compounds c) by (split; reflexivity). destruct K as (K & Cs).
  replace (fix_all_tables u k [Normal fc] w) with (Ret [Normal fc]) in E by reflexivity. cbn [bind] in E.
  assert (J : justify_blocks [Normal fc] = [Normal fc]).
  { eapply P_Block.runs_none; [apply C34_justified|]. repeat constructor. unfold is_code. rewrite K. cbn [of_code] in NC. destruct (mc_style c); try discriminate; reflexivity. }
  rewrite J in E. rewrite <- K, <- Cs. clear J. rewrite NC.
  assert (One : exists fcs, [Normal fc] = map Normal fcs /\ kinds_of (fc_kind fc) fcs /\ thinned u (S_Wrap.styled (fc_compounds fc)) (flat_map (fun f => S_Wrap.styled (fc_compounds f)) fcs) /\ (false = true -> exists vl, fcs = [mkFC KCode (fc_compounds fc) vl (Some (mkSpacing (snd q) ALeft))] /\ vl = sumw (chw u) (text_of (fc_compounds fc)) /\ vl <= snd q)).
  { exists [fc]. split; [reflexivity|]. split; [exists fc, []; auto|]. split; [|discriminate]. cbn [flat_map]. rewrite app_nil_r. apply L_Wrap.thinned_refl. }
  destruct (3 <=? w); [|injection E as <-; exact One]. cbn [hard_wrap_lines] in E. inv1 E. inv1 E0. destruct (margins_in x0 (Some w)) as (lm & rm).
  destruct (_ <=? _) in E0; [cbn [bind option_map] in E0; injection E0 as <-; injection E as <-; exact One|]. clear One.
  inv1 E0. inv1 E0. inv1 E0. destruct x3 as [fcs|]; [|injection E0 as <-; discriminate E]. cbn [bind option_map] in E0. injection E0 as <-. rewrite app_nil_r in E. injection E as <-. cbn [txt_lines].
  exists fcs. split; [reflexivity|]. destruct (@C25_kinds _ _ _ _ _ E4) as (first & others & -> & K1 & K2 & _). split; [exists first, others; auto|]. split; [|discriminate].
  apply (@C24_text_kept _ _ _ _ _ E4).
Qed.
(** A block of code which has its place *)
Lemma block_made u k um w text t : additive u -> 3 <= w -> text <> [] -> Forall (fun l => of_code l = true) text -> Forall (area_source u k w) text -> from_text u k um text (Some w) = Ret t ->
  exists bw gs, txt_lines t = concat gs /\ Forall2 (fun l g => made u k w l g ([], bw)) text gs.
Proof.
  intros Hu H3 Hne F Hsrc E. unfold from_text in E. set (ls := map (line_from u k) text) in *.
  assert (Fc : Forall (fun l => is_code l = true) ls).
  { unfold ls. apply Forall_map. eapply Forall_impl; [|exact F]. intros [c| | | |]; try discriminate. cbn. destruct (mc_style c); try discriminate. reflexivity. }
  assert (Ft : Forall (fun l => is_table l = false) ls).
  { eapply Forall_impl; [|exact Fc]. intros []; try discriminate. reflexivity. }
  apply bind_Ret_inv in E as (l1 & E1 & E). apply fix_all_iff in E1. apply P_Block.runs_none in E1; [|exact Ft]. subst l1.
  pose proof (C34_justified ls) as J. apply P_Block.runs_whole in J; [|exact Fc|unfold ls; destruct text; [congruence|discriminate]].
  destruct J as (bw & J1 & _ & J3). exists bw. destruct (Nat.leb_spec 3 w); [|lia]. apply bind_Ret_inv in E as ([l3|] & E3 & E); [|discriminate]. injection E as <-. cbn [txt_lines].
  apply C26_lines in E3 as (gs & -> & HF). exists gs. split; [reflexivity|]. unfold ls in J1, J3, HF. clearbody ls. assert (J1' : forall l, In l text -> code_length (line_from u k l) <= bw) by (intros l I; apply J1, in_map, I). clear J1. clear - Hu J3 HF F Hsrc J1'. revert gs HF. generalize dependent (justify_blocks (map (line_from u k) text)).
  induction text as [|l text IH]; intros js J3 gs HF; inversion J3 as [|? j ? js' J1 J2]; subst; inversion HF as [|? g ? gs' G1 G2]; subst; constructor.
  - inversion F as [|? ? F1 _]; subst. inversion Hsrc as [|? ? S1 _]; subst. destruct J1 as (fc & El & ->). destruct l as [c| | | |]; try discriminate. cbn [line_from] in El. injection El as <-. cbn [made area_source fc_kind] in *.
    assert (Kc : kind_of (mc_style c) = KCode) by (cbn [of_code] in F1; destruct (mc_style c); try discriminate; reflexivity). destruct G1 as (lm & rm & M & G1). cbn [fc_from fc_kind visible_length fc_compounds] in *.
    rewrite Kc in *. destruct S1 as (_ & S1). destruct (S1 lm rm M) as (_ & S2). specialize (S2 eq_refl). pose proof (C25_from_length k c Hu) as Q. unfold length_ok, shown in Q. change (fc_kind (fc_from u k c)) with (kind_of (mc_style c)) in Q. change (fc_compounds (fc_from u k c)) with (mc_compounds c) in Q. change (visible_length (fc_from u k c)) with (visible_composite_length u k (kind_of (mc_style c)) (mc_compounds c)) in Q. rewrite Kc in Q. cbn [lead] in Q.
    destruct G1 as [(_ & ->)|(L & _)]; [|exfalso; cbn [plus] in Q; lia].
    set (f := mkFC KCode (mc_compounds c) _ _). exists [f]. split; [reflexivity|]. split; [exists f, []; auto|]. split; [replace (flat_map _ [f]) with (S_Wrap.styled (mc_compounds c) ++ []) by reflexivity; rewrite app_nil_r; apply L_Wrap.thinned_refl|]. intros _. eexists. split; [reflexivity|]. cbn [plus] in Q. split; [exact Q|]. pose proof (J1' _ (or_introl eq_refl)) as J1. cbn [line_from code_length snd] in *. change (visible_length (fc_from u k c)) with (visible_composite_length u k (kind_of (mc_style c)) (mc_compounds c)) in J1. rewrite Kc in J1. exact J1.
  - inversion F; inversion Hsrc; subst. eapply IH; try eassumption. intros l0 I. apply J1'. right. exact I.
Qed.

(** ** The parts of a text *)
Lemma run_split A (p : A -> bool) : forall l : list A, exists a b, l = a ++ b /\ Forall (fun x => p x = true) a /\ match b with [] => True | y :: _ => p y = false end.
Proof.
  induction l as [|x l (a & b & -> & H & B)]; [exists [], []; auto|]. destruct (p x) eqn:E; [exists (x :: a), b; auto|exists [], (x :: a ++ b); auto].
Qed.
Lemma run_separate p a b : (p = of_table \/ p = of_code) -> Forall (fun l => p l = true) a -> match b with [] => True | y :: _ => p y = false end -> separate a b.
Proof.
  intros P F B. rewrite Forall_forall in F. assert (K : forall l, of_table l = true -> of_code l = true -> False) by (intros []; discriminate).
  split; intros (a' & x & y & b' & -> & -> & X & Y); specialize (F x ltac:(apply in_or_app; right; left; reflexivity)); destruct P as [-> | ->]; try congruence; eauto.
Qed.
Lemma one_separate l b : of_table l = false -> of_code l = false -> separate [l] b.
Proof. intros A B. split; intros (a' & x & y & b' & E & _ & X & _); destruct a' as [|? [|]]; try discriminate; injection E as <-; congruence. Qed.
(** Lines of the same table or of the same block are made with the same widths *)
Definition alike (text : list MLine) (qs : list (list nat * nat)) : Prop :=
  forall i l l' q q', nth_error text i = Some l -> nth_error text (S i) = Some l' -> nth_error qs i = Some q -> nth_error qs (S i) = Some q' -> together l l' -> q = q'.
Lemma alike_app a b qa qb : length qa = length a -> separate a b -> alike a qa -> alike b qb -> alike (a ++ b) (qa ++ qb).
Proof.
  intros L (S1 & S2) A B i l l' q q' H1 H2 H3 H4 T. destruct (Nat.lt_ge_cases (S i) (length a)) as [C|C].
  - rewrite nth_error_app1 in H1, H2, H3, H4 by lia. exact (A i l l' q q' H1 H2 H3 H4 T).
  - destruct (Nat.eq_dec (S i) (length a)) as [D|D].
    + exfalso. rewrite nth_error_app1 in H1 by lia. rewrite nth_error_app2 in H2 by lia. rewrite D, Nat.sub_diag in H2. destruct b as [|y b]; [discriminate|]. injection H2 as ->.
      assert (X : exists a', a = a' ++ [l]).
      { destruct (exists_last (l := a)) as (a' & x & ->); [intros ->; discriminate D|]. rewrite app_length in D. cbn [length] in D. rewrite nth_error_app2 in H1 by lia. replace (i - length a') with 0 in H1 by lia. injection H1 as ->. eauto. }
      destruct X as (a' & ->). destruct T as [(T1 & T2)|(T1 & T2)]; [apply S1|apply S2]; exists a', l, l', b; auto.
    + rewrite nth_error_app2 in H1, H2, H3, H4 by lia. replace (S i - length a) with (S (i - length a)) in H2 by lia. replace (S i - length qa) with (S (i - length qa)) in H4 by lia. rewrite L in H3, H4. exact (B _ l l' q q' H1 H2 H3 H4 T).
Qed.
Lemma alike_same a q n : alike a (repeat q n).
Proof. intros i l l' p p' _ _ H3 H4 _. apply nth_error_In, repeat_spec in H3. apply nth_error_In, repeat_spec in H4. congruence. Qed.
Lemma Forall2_repeat A B C (R : A -> B -> C -> Prop) q : forall (l : list A) (g : list B), Forall2 (fun l g => R l g q) l g -> Forall2 (fun l gq => R l (fst gq) (snd gq)) l (combine g (repeat q (length l))).
Proof. induction 1; cbn; constructor; auto. Qed.
Lemma combine_split_map A B (g : list A) (q : list B) : length g = length q -> map fst (combine g q) = g /\ map snd (combine g q) = q.
Proof. revert q. induction g as [|x g IH]; intros [|y q] L; try discriminate; [auto|]. cbn in *. destruct (IH q) as (-> & ->); [lia|auto]. Qed.
Lemma text_made u k um w : additive u -> (forall c, chw u c <= 2) -> 5 <= w -> forall n text t, length text <= n -> Forall (area_source u k w) text -> from_text u k um text (Some w) = Ret t ->
  exists gq, txt_lines t = concat (map fst gq) /\ Forall2 (fun l gq => made u k w l (fst gq) (snd gq)) text gq /\ alike text (map snd gq).
Proof.
  intros Hu H2 Hw. induction n as [|n IH]; intros text t L Hsrc E.
  { destruct text; [|cbn in L; lia]. replace (from_text u k um [] (Some w)) with (Ret (mkText [] (Some w))) in E by (destruct w as [|[|[|w]]]; reflexivity). injection E as <-. exists []. split; [reflexivity|]. split; [constructor|]. intros i; destruct i; discriminate. }
  destruct text as [|l0 text0]; [exact (IH [] t ltac:(cbn; lia) Hsrc E)|].
  assert (Part : exists a b, l0 :: text0 = a ++ b /\ a <> [] /\ separate a b /\ forall ta, from_text u k um a (Some w) = Ret ta -> exists q gs, txt_lines ta = concat gs /\ Forall2 (fun l g => made u k w l g q) a gs).
  { destruct (of_table l0) eqn:Et; [|destruct (of_code l0) eqn:Ec].
    - destruct (run_split of_table text0) as (a & b & -> & F & B). exists (l0 :: a), b. split; [reflexivity|]. split; [discriminate|]. assert (F' : Forall (fun l => of_table l = true) (l0 :: a)) by (constructor; assumption).
      split; [apply (@run_separate of_table); auto|]. intros ta Ea. change (l0 :: a ++ b) with ((l0 :: a) ++ b) in Hsrc. apply Forall_app in Hsrc as (Hsrc & _).
      destruct (@table_lines u k um w (l0 :: a) ta Hu H2 Hw ltac:(discriminate) F' Hsrc Ea) as (ws & gs & Lw & G3 & Gs & N' & El & Hc & Hr & HS). exists (ws, 0), gs. split; [exact El|].
      rewrite El in *. assert (Hcols : Forall (fun l => match l with MTableRow cells => length cells <= length ws | _ => True end) (l0 :: a)).
      { rewrite Lw. unfold source_columns. generalize (l0 :: a). clear. induction l as [|x l IH]; constructor.
        - destruct x; auto. cbn [map fold_right]. lia.
        - cbn [map fold_right]. eapply Forall_impl; [|exact IH]. intros []; auto. intros. lia. }
      revert Hcols F' Hc Hr. clear - HS N' Gs. induction HS as [|l g tb gs H _ IH]; intros Hcols F' Hc Hr; constructor.
      + inversion F' as [|? ? F1 _]; subst. inversion Hcols as [|? ? C1 _]; subst. cbn [concat] in Hc, Hr. apply Forall_app in Hc as (Hc & _). apply Forall_app in Hr as (Hr & _). destruct l as [c|cells|als| |]; try discriminate; cbn [made fst]; auto 10.
      + inversion F'; inversion Hcols; subst. cbn [concat] in Hc, Hr. apply Forall_app in Hc as (_ & Hc). apply Forall_app in Hr as (_ & Hr). auto.
    - destruct (run_split of_code text0) as (a & b & -> & F & B). exists (l0 :: a), b. split; [reflexivity|]. split; [discriminate|]. assert (F' : Forall (fun l => of_code l = true) (l0 :: a)) by (constructor; assumption).
      split; [apply (@run_separate of_code); auto|]. intros ta Ea. change (l0 :: a ++ b) with ((l0 :: a) ++ b) in Hsrc. apply Forall_app in Hsrc as (Hsrc & _).
      destruct (@block_made u k um w (l0 :: a) ta Hu ltac:(lia) ltac:(discriminate) F' Hsrc Ea) as (bw & gs & El & HF). exists ([], bw), gs. auto.
    - exists [l0], text0. split; [reflexivity|]. split; [discriminate|]. split; [apply one_separate; assumption|]. intros ta Ea. exists ([], 0), [txt_lines ta]. split; [cbn; rewrite app_nil_r; reflexivity|]. repeat constructor. eapply line_made; eassumption. }
  destruct Part as (a & b & Eab & Na & Sab & Pa). rewrite Eab in *. apply C83_formatted in E as (ta & tb & Ea & Eb & ->); [|exact Sab]. destruct (Pa ta Ea) as (q & gs & El & HF).
  apply Forall_app in Hsrc as (_ & Hb). destruct (IH b tb) as (gq & El' & HF' & A'); [|exact Hb|exact Eb|].
  { rewrite app_length in L. destruct a; [congruence|]. cbn [length] in L. lia. }
  pose proof (Forall2_len HF) as Lg. destruct (@combine_split_map _ _ gs (repeat q (length a))) as (M1 & M2); [rewrite repeat_length; lia|].
  exists (combine gs (repeat q (length a)) ++ gq). cbn [txt_lines]. rewrite !map_app, concat_app, M1, M2, El, El'. split; [reflexivity|]. split; [apply Forall2_app; [apply Forall2_repeat, HF|exact HF']|].
  apply alike_app; [apply repeat_length|exact Sab|apply alike_same|exact A'].
Qed.

(** ** Reading the lines made for a source line *)
Lemma seen_app u a b : seen_chars u (a ++ b) = seen_chars u a ++ seen_chars u b.
Proof. apply filter_app. Qed.
Lemma seen_repeat u c n : chw u c = 1 -> seen_chars u (repeat c n) = repeat c n.
Proof. intros H. unfold seen_chars. induction n as [|n IH]; [reflexivity|]. cbn [repeat filter]. rewrite H. change (0 <? 1) with true. cbv iota. f_equal. exact IH. Qed.
Lemma blanks_text cs n : map fst (blanks cs n) = spaces n.
Proof. unfold blanks, spaces. induction n as [|n IH]; [reflexivity|]. cbn [repeat map fst]. f_equal. exact IH. Qed.
Lemma spaces_app a b : spaces (a + b) = spaces a ++ spaces b.
Proof. apply repeat_app. Qed.
Lemma compounds_text k ls cs : map fst (flat_map (compound_drawn no_special k ls) cs) = text_of cs.
Proof. induction cs as [|c cs IH]; [reflexivity|]. cbn [flat_map text_of]. rewrite map_app. unfold compound_drawn at 1. cbn [no_special]. unfold text_of in IH. rewrite IH, map_map. cbn [fst]. rewrite map_id. reflexivity. Qed.
Lemma composite_seen u k fc w d : chw u 32%N = 1 -> composite_drawn no_special k fc (Some w) true true d ->
  exists a b, seen_chars u (map fst d) = spaces a ++ placed_chars u (row_mark k (fc_kind fc) 0 ++ text_of (fc_compounds fc)) ++ spaces b
  /\ forall bw lm rm, fc_kind fc = KCode -> fc_spacing fc = Some (mkSpacing bw ALeft) -> margins_in (code_block k) (Some w) = (lm, rm) ->
     a = fst (optional_completions (ls_align (code_block k)) (bw + lm + rm) (Some w)) + lm.
Proof.
  intros H32 (ls & lm & rm & lp & rp & li & ri & El & Hm & So & Si & ->).
  assert (S32 : forall n, seen_chars u (spaces n) = spaces n) by (intros n; apply seen_repeat, H32).
  set (T := text_of (fc_compounds fc)).
  assert (Mk : exists m, map fst (mark_drawn k (fc_kind fc)) = spaces m ++ row_mark k (fc_kind fc) 0 /\ (fc_kind fc = KCode -> m = 0)).
  { unfold mark_drawn, row_mark. destruct (fc_kind fc) as [|lv|d|d| |]; try (exists 0; split; [reflexivity|reflexivity]).
    - exists d. rewrite !map_app, !blanks_text. split; [reflexivity|discriminate].
    - destruct (indent_mode k); [exists 0; split; [reflexivity|discriminate]|exists (d + 2); rewrite blanks_text, app_nil_r; split; [reflexivity|discriminate]]. }
  destruct Mk as (m & Em & Mk). exists (lp + lm + li + m), (ri + (rp + rm)). split.
  - rewrite !map_app, !blanks_text, Em, compounds_text. fold T. change (placed_chars u) with (seen_chars u). rewrite !seen_app, !S32, !spaces_app, <- !app_assoc. reflexivity.
  - intros bw lm' rm' Kc Sp Mi. rewrite Kc in El. cbn [line_style] in El. injection El as <-. unfold room in So. rewrite Sp in So, Si. cbn [sp_width sp_align] in So, Si. destruct Si as (_ & Si).
    pose proof (margins_spec (code_block k) true (Some w)) as Hm'. cbv beta iota in Hm'. rewrite Mi in Hm'. assert (X : lm' = lm /\ rm' = rm).
    { destruct Hm as (_ & Hm). destruct Hm' as (_ & Hm'). specialize (Hm eq_refl). specialize (Hm' eq_refl). cbn beta iota in Hm, Hm'. destruct (Nat.le_gt_cases (left_margin (code_block k) + right_margin (code_block k) + 3) w) as [L|L];
        [destruct Hm as (Hm & _); destruct Hm' as (Hm' & _)|destruct Hm as (_ & Hm); destruct Hm' as (_ & Hm')]; specialize (Hm L); specialize (Hm' L); lia. }
    destruct X as (-> & ->). pose proof (shared_opt_spec (ls_align (code_block k)) (bw + lm + rm) (Some w)) as So'. destruct (optional_completions _ _ _) as (lp' & rp'). cbn [fst].
    pose proof (@shared_unique _ _ _ _ _ _ _ So So') as <-. rewrite (Mk Kc). lia.
Qed.
Lemma next_mark k kind i : row_mark k (next_kind kind) 0 = row_mark k kind (S i).
Proof. destruct kind; reflexivity. Qed.

(** Where a line is placed on [w] columns *)
Definition laid (k : MadSkin) (w : nat) (l : MLine) (g : list FmtLine) (q : list nat * nat) : Laid :=
  mkLaid (length g) (fst q)
    (if of_table l then fst (optional_completions (ls_align (table k)) (table_line_width (fst q)) (Some w))
     else let '(lm, rm) := margins_in (code_block k) (Some w) in fst (optional_completions (ls_align (code_block k)) (snd q + lm + rm) (Some w)) + lm).
Lemma tiles_width u y row from to : tiles u y from row to -> to = from + sumw (chw u) (map s_char row).
Proof. intros H. rewrite <- (app_nil_r row) in H. apply tiles_app in H as (_ & H). cbn [tiles] in H. symmetry. exact H. Qed.
Lemma one_read u k tm out rows x0 y0 W w w' s sb lines LA g LB l q :
  narrow_chars u k -> is_white u 32%N = true -> Forall (fun c => chw u (fst (drawn_char c)) = 1) [thumb (scrollbar k); track (scrollbar k)] ->
  clean out -> screen u (t_x tm) (t_y tm) out = concat rows ->
  (forall j row, nth_error rows j = Some row -> tiles u (y0 + j) x0 row (x0 + W) /\ shows_row u no_special k lines w s sb y0 j row) ->
  match sb with None => w = W | Some _ => w + 1 = W end ->
  lines = LA ++ g ++ LB -> made u k w' l g q -> w' <= w ->
  s <= length LA -> length LA + length g <= s + length rows ->
  reads_line u k (term_run u tm out) (laid k w l g q) l x0 (y0 + (length LA - s)) w.
Proof.
  intros Hn Wh Hbar C E H HW Hl M Lw L1 L2.
  assert (H32 : chw u 32%N = 1) by (narrow Hn).
  assert (R : forall d x, nth_error g d = Some x -> exists dr, line_drawn no_special k x (Some w) true dr
     /\ read_row (term_run u tm out) x0 (y0 + (length LA - s) + d) w = seen_chars u (map fst dr)).
  { intros d x Ex. assert (Dl : d < length g) by (apply nth_error_Some; congruence). destruct (nth_error rows (length LA - s + d)) as [row|] eqn:Er; [|apply nth_error_None in Er; lia].
    destruct (H _ _ Er) as (T & dr & bar & Ed & Dl' & Hb). exists dr. 
    assert (Hx : nth_error lines (s + (length LA - s + d)) = Some x).
    { rewrite Hl, nth_error_app2 by lia. rewrite nth_error_app1 by lia. rewrite <- Ex. f_equal. lia. }
    rewrite Hx in Dl'. split; [exact Dl'|].
    apply (f_equal (map fst)) in Ed. unfold row_chars, with_style in Ed. rewrite !map_map in Ed. cbn [fst] in Ed. rewrite map_app in Ed. change (map s_char row = map fst dr ++ map fst bar) in Ed.
    assert (Wb : sumw (chw u) (map fst bar) = W - w).
    { destruct sb as [(t & b)|]; [|subst bar; cbn; lia]. inversion Hbar as [|? ? B1 B2]; subst. inversion B2 as [|? ? B3 _]; subst. destruct Hb as (Hb1 & Hb2).
      replace (w + 1 - w) with 1 by lia. destruct (N.leb t (N.of_nat (y0 + (length LA - s + d)))) eqn:Q1; [destruct (N.leb (N.of_nat (y0 + (length LA - s + d))) b) eqn:Q2|].
      - rewrite Hb1 by lia. cbn [map]. rewrite sumw_cons, B1. reflexivity.
      - rewrite Hb2 by lia. cbn [map]. rewrite sumw_cons, B3. reflexivity.
      - rewrite Hb2 by lia. cbn [map]. rewrite sumw_cons, B3. reflexivity. }
    assert (Wd : sumw (chw u) (map fst dr) = w).
    { pose proof (@tiles_width _ _ _ _ _ T) as Q. rewrite Ed, sumw_app, Wb in Q. destruct sb; lia. }
    pose proof (@part_drawn u out tm x0 y0 W rows C E (fun j row Ej => proj1 (H j row Ej)) _ row [] (map fst dr) (map fst bar) Er Ed) as P. cbn [sumw map] in P. change (sumw (chw u) []) with 0 in P. rewrite Nat.add_0_r, Wd, Nat.add_assoc in P. exact P. }
  destruct l as [c|cells|als| |]; cbn [made reads_line l_rows l_columns l_left laid] in *.
  - destruct M as (fcs & -> & (first & others & -> & K1 & K2) & Sh & Cd). exists (map (fun f => text_of (fc_compounds f)) (first :: others)). rewrite !map_length. split; [reflexivity|]. apply thinned_shrunk in Sh. rewrite flat_text, <- text_styled in Sh. rewrite flat_map_concat_map in Sh. split; [exact Sh|]. split.
    + intros i part Ei. rewrite nth_error_map in Ei. destruct (nth_error (first :: others) i) as [f|] eqn:Ef; [|discriminate]. injection Ei as <-.
      destruct (R i (Normal f)) as (dr & Dr & Rd); [rewrite nth_error_map, Ef; reflexivity|]. cbn [line_drawn] in Dr. destruct (@composite_seen u k f w dr H32 Dr) as (a & b & Es & Ea). exists a, b. split.
      * rewrite Rd, Es. do 3 f_equal. destruct i as [|i]; cbn [nth_error] in Ef.
        -- injection Ef as ->. rewrite K1. reflexivity.
        -- rewrite Forall_forall in K2. rewrite (K2 f (nth_error_In _ _ Ef)). rewrite (next_mark k _ i). reflexivity.
      * intros Oc. destruct (Cd Oc) as (vl & Ec & _). rewrite Ec in Ef. destruct i as [|[|i]]; try discriminate Ef. injection Ef as <-. cbn [of_table fc_kind fc_spacing] in *.
        destruct (margins_in (code_block k) (Some w)) as (lm & rm) eqn:Em. apply (Ea (snd q) lm rm eq_refl eq_refl eq_refl).
    + intros Oc. destruct (Cd Oc) as (vl & -> & _). reflexivity.
  - destruct M as (Sl & Hc & Hr & N' & Gs & Hcl). split; [exact Hcl|]. cbn [of_table]. split; [apply table_placed; lia|].
    pose proof (@lines_read u k tm out rows x0 y0 W w s sb lines LA [g] LB (fst q) [MTableRow cells] Hn Wh N' C E H) as X. cbn [concat] in X. rewrite app_nil_r in X. specialize (X Hl Hc Hr ltac:(constructor; [exact Sl|constructor]) 0 _ g eq_refl eq_refl).
    cbn [firstn concat length] in X. rewrite Nat.add_0_r in X. apply X; lia.
  - destruct M as (Sl & Hc & Hr & N' & Gs & _). cbn [of_table]. split; [apply table_placed; lia|].
    pose proof (@lines_read u k tm out rows x0 y0 W w s sb lines LA [g] LB (fst q) [MTableRule als] Hn Wh N' C E H) as X. cbn [concat] in X. rewrite app_nil_r in X. specialize (X Hl Hc Hr ltac:(constructor; [exact Sl|constructor]) 0 _ g eq_refl eq_refl).
    cbn [firstn concat length] in X. rewrite Nat.add_0_r in X. apply X; lia.
  - subst g. split; [reflexivity|]. destruct (R 0 _ eq_refl) as (dr & -> & Rd). rewrite Nat.add_0_r in Rd. rewrite Rd. rewrite map_repeat. cbn [fst]. apply seen_repeat. narrow Hn.
  - subst g. split; [reflexivity|]. destruct (R 0 _ eq_refl) as (dr & -> & Rd). rewrite Nat.add_0_r in Rd. rewrite Rd. rewrite map_repeat. cbn [fst]. apply seen_repeat. narrow Hn.
Qed.

(** ** C101 *)
Definition laids (k : MadSkin) (w : nat) (text : list MLine) (gq : list (list FmtLine * (list nat * nat))) : list Laid := map (fun x => laid k w (fst x) (fst (snd x)) (snd (snd x))) (combine text gq).
Lemma combine_nth A B (a : list A) (b : list B) i x y : nth_error a i = Some x -> nth_error b i = Some y -> nth_error (combine a b) i = Some (x, y).
Proof. revert b i. induction a as [|a0 a IH]; intros [|b0 b] [|i]; cbn; try discriminate; [congruence|apply IH]. Qed.
Lemma combine_inv A B (a : list A) (b : list B) i x y : nth_error (combine a b) i = Some (x, y) -> nth_error a i = Some x /\ nth_error b i = Some y.
Proof. revert b i. induction a as [|a0 a IH]; intros [|b0 b] [|i]; cbn; try discriminate; [intros H; injection H as -> ->; auto|apply IH]. Qed.
Lemma laids_nth k w text gq i p : nth_error (laids k w text gq) i = Some p -> exists l g q, nth_error text i = Some l /\ nth_error gq i = Some (g, q) /\ p = laid k w l g q.
Proof. unfold laids. rewrite nth_error_map. destruct (nth_error (combine text gq) i) as [(l & g & q)|] eqn:E; [|discriminate]. intros H. injection H as <-. apply combine_inv in E as (E1 & E2). exists l, g, q. auto. Qed.
Lemma laids_aligned k w text gq : alike text (map snd gq) -> aligned text (laids k w text gq).
Proof.
  intros A i l l' p p' H1 H2 H3 H4 T. apply laids_nth in H3 as (l1 & g & q & E1 & E2 & ->). apply laids_nth in H4 as (l2 & g' & q' & E3 & E4 & ->). assert (l1 = l) as -> by congruence. assert (l2 = l') as -> by congruence.
  assert (q' = q) as ->. { symmetry. apply (A i l l' q q' H1 H2); [rewrite nth_error_map, E2; reflexivity|rewrite nth_error_map, E4; reflexivity|exact T]. }
  cbn [laid l_columns l_left]. split; [reflexivity|]. assert (of_table l = of_table l') as ->; [|reflexivity]. destruct T as [(-> & ->)|(T1 & T2)]; [reflexivity|]. destruct l; try discriminate; destruct l'; try discriminate; reflexivity.
Qed.
Lemma laids_rows u k w w' text gq : Forall2 (fun l gq => made u k w' l (fst gq) (snd gq)) text gq ->
  length (laids k w text gq) = length text /\ map l_rows (laids k w text gq) = map (@length _) (map fst gq) /\ Forall (fun p => 1 <= l_rows p) (laids k w text gq).
Proof.
  induction 1 as [|l (g & q) text gq M _ (A & B & D)]; [repeat constructor|]. unfold laids in *. cbn [combine map fst snd] in *. split; [cbn [length]; congruence|]. split; [cbn [l_rows laid]; f_equal; exact B|]. constructor; [|exact D]. cbn [laid l_rows]. eapply made_rows. exact M.
Qed.
(** The lines of the source number [i], among all the lines *)
Lemma line_at A (gs : list (list A)) i g : nth_error gs i = Some g -> exists LB, concat gs = concat (firstn i gs) ++ g ++ LB.
Proof.
  intros H. apply nth_error_split in H as (g1 & g2 & -> & <-). exists (concat g2). rewrite firstn_app, firstn_all, Nat.sub_diag. cbn [firstn]. rewrite app_nil_r, concat_app. reflexivity.
Qed.
(** The rows after the text *)
Lemma after_read u k tm out rows x0 y0 W s lines :
  chw u 32%N = 1 -> clean out -> screen u (t_x tm) (t_y tm) out = concat rows ->
  (forall j row, nth_error rows j = Some row -> tiles u (y0 + j) x0 row (x0 + W) /\ shows_row u no_special k lines W s None y0 j row) ->
  forall j, j < length rows -> length lines <= s + j -> read_row (term_run u tm out) x0 (y0 + j) W = spaces W.
Proof.
  intros H32 C E H j Hj Hl. destruct (nth_error rows j) as [row|] eqn:Er; [|apply nth_error_None in Er; lia].
  rewrite (@read_drawn u out tm x0 y0 W rows C E (fun j row Ej => proj1 (H j row Ej)) j row Er). destruct (H j row Er) as (_ & dr & bar & Ed & Dl & ->). destruct (nth_error lines (s + j)) eqn:Q; [apply nth_error_None in Hl; congruence|]. subst dr.
  apply (f_equal (map fst)) in Ed. unfold row_chars, with_style in Ed. rewrite !map_map in Ed. cbn [fst] in Ed. rewrite app_nil_r in Ed. change (map s_char row = map fst (blanks (ls_cs (paragraph k)) W)) in Ed. rewrite Ed, blanks_text. apply seen_repeat, H32.
Qed.

(** A text with all kinds of lines, drawn in an area. Each source line has its rows, one after the other; the lines of a table have the same columns, the lines of a block of code the same left.
    On each terminal, the rows of a source line which are in the area are read as this source line. The rows after the text are blank. *)
Theorem C101_area : forall u k um text a, usual u no_special k ->
  (6 <= a_width a)%N -> on_screen a -> margins_not_just k (N.to_nat (a_width a)) ->
  Forall (area_source u k (N.to_nat (a_width a) - 1)) text -> is_white u 32%N = true ->
  exists t out ps, area_text u k um text a = Ret t /\ write_in_area_on u no_special k um text a = Ret out
  /\ length ps = length text /\ Forall (fun p => 1 <= l_rows p) ps /\ sum (map l_rows ps) = length (txt_lines t) /\ aligned text ps
  /\ forall tm, 
     (forall i l p, nth_error text i = Some l -> nth_error ps i = Some p ->
      let n := sum (map l_rows (firstn i ps)) in n + l_rows p <= N.to_nat (a_height a) ->
      reads_line u k (term_run u tm out) p l (N.to_nat (a_left a)) (N.to_nat (a_top a) + n) (N.to_nat (a_width a)))
     /\ (forall j, length (txt_lines t) <= j < N.to_nat (a_height a) -> read_row (term_run u tm out) (N.to_nat (a_left a)) (N.to_nat (a_top a) + j) (N.to_nat (a_width a)) = spaces (N.to_nat (a_width a))).
Proof.
  intros u k um text a U W S M T Wh. destruct (@C76_area_partial u no_special k um _ a U W S M T) as (t & out & Et & E & HF).
  destruct U as (Hk & Hu & H2 & Hn & Hs & Hb). pose proof Et as Et'. unfold area_text in Et'. rewrite subN_ret, bind_ret in Et' by lia. replace (N.to_nat (a_width a - 1)) with (N.to_nat (a_width a) - 1) in Et' by lia.
  destruct (@text_made u k um (N.to_nat (a_width a) - 1) Hu H2 ltac:(lia) _ text t (le_n _) T Et') as (gq & El & HM & HA).
  set (w := N.to_nat (a_width a)) in *. exists t, out, (laids k w text gq). split; [exact Et|]. split; [exact E|]. destruct (@laids_rows u k w _ text gq HM) as (P1 & P2 & P3). split; [exact P1|]. split; [exact P3|].
  split; [rewrite P2, El, length_concat'; reflexivity|]. split; [apply laids_aligned, HA|].
  intros tm. destruct (HF (t_x tm) (t_y tm)) as (_ & rows & Er & Lr & HR). assert (C : clean out) by (eapply clean_area; left; exact E). split.
  - intros i l p Hi Hp n Hn'. pose proof Hp as Hp'. apply laids_nth in Hp as (l' & g & q & E1 & E2 & ->). assert (l' = l) as -> by congruence. cbn [l_rows laid] in Hn'.
    destruct (@line_at _ (map fst gq) i g) as (LB & EB); [rewrite nth_error_map, E2; reflexivity|]. rewrite EB in El.
    assert (En : n = length (concat (firstn i (map fst gq)))) by (unfold n; rewrite length_concat', <- firstn_map, P2, firstn_map; reflexivity).
    rewrite En in *. pose proof (@one_read u k tm out rows (N.to_nat (a_left a)) (N.to_nat (a_top a)) w w (w - 1) 0 None (txt_lines t) (concat (firstn i (map fst gq))) g LB l q Hn Wh Hb C Er HR eq_refl El) as X. rewrite Nat.sub_0_r in X.
    apply X; [|lia|lia|lia]. clear - HM Hi E2. revert i Hi E2. induction HM as [|l0 gq0 text gq M0 _ IH]; intros [|i] Hi E2; try discriminate; cbn in *; [injection Hi as ->; injection E2 as ->; exact M0|eauto].
  - intros j Hj. apply (@after_read u k tm out rows (N.to_nat (a_left a)) (N.to_nat (a_top a)) w 0 (txt_lines t)); [narrow Hn|exact C|exact Er|exact HR|lia|lia].
Qed.
Print Assumptions C101_area.
(** The same in a scrollable view, for the source lines whose rows are shown with this scroll. Its columns are the ones of the area, but for the scrollbar when there is one. *)
Theorem C101_view : forall u k um text a, usual u no_special k ->
  (6 <= a_width a)%N -> (1 <= a_height a)%N -> on_screen a -> margins_not_just k (N.to_nat (a_width a)) ->
  Forall (area_source u k (N.to_nat (a_width a) - 1)) text -> is_white u 32%N = true ->
  exists t ps, area_text u k um text a = Ret t
  /\ length ps = length text /\ Forall (fun p => 1 <= l_rows p) ps /\ sum (map l_rows ps) = length (txt_lines t) /\ aligned text ps
  /\ (length (txt_lines t) < N.to_nat 65536 -> forall s, N.to_nat s <= length (txt_lines t) - N.to_nat (a_height a) ->
  exists out, mad_write_on u no_special k um text a s = Ret out
  /\ let w := if length (txt_lines t) <=? N.to_nat (a_height a) then N.to_nat (a_width a) else N.to_nat (a_width a) - 1 in
     forall tm i l p, nth_error text i = Some l -> nth_error ps i = Some p ->
     let n := sum (map l_rows (firstn i ps)) in N.to_nat s <= n -> n + l_rows p <= N.to_nat s + N.to_nat (a_height a) ->
     reads_line u k (term_run u tm out) p l (N.to_nat (a_left a)) (N.to_nat (a_top a) + (n - N.to_nat s)) w).
Proof.
  intros u k um text a U W Hh S M T Wh. destruct (@C76_view_partial u no_special k um _ a 0%N U W Hh S M T) as (t & Et & _). pose proof U as (Hk & Hu & H2 & Hn & Hs & Hb).
  pose proof Et as Et'. unfold area_text in Et'. rewrite subN_ret, bind_ret in Et' by lia. replace (N.to_nat (a_width a - 1)) with (N.to_nat (a_width a) - 1) in Et' by lia.
  destruct (@text_made u k um (N.to_nat (a_width a) - 1) Hu H2 ltac:(lia) _ text t (le_n _) T Et') as (gq & El & HM & HA).
  set (w := if length (txt_lines t) <=? N.to_nat (a_height a) then N.to_nat (a_width a) else N.to_nat (a_width a) - 1).
  exists t, (laids k w text gq). split; [exact Et|]. destruct (@laids_rows u k w _ text gq HM) as (P1 & P2 & P3). split; [exact P1|]. split; [exact P3|].
  split; [rewrite P2, El, length_concat'; reflexivity|]. split; [apply laids_aligned, HA|].
  intros L1 s L2. destruct (@C76_view_partial u no_special k um _ a s U W Hh S M T) as (t' & Et2 & V). assert (t' = t) as -> by congruence. destruct (V L1 L2) as (out & sb & E & Hsb & HF).
  assert (Hw : match sb with None => N.to_nat (a_width a) | Some _ => N.to_nat (a_width a) - 1 end = w).
  { unfold w. destruct (Nat.leb_spec (length (txt_lines t)) (N.to_nat (a_height a))) as [L|L]; destruct sb as [b|]; try reflexivity.
    - exfalso. assert (Some b <> None) as X by discriminate. apply Hsb in X. lia.
    - exfalso. apply Hsb in L. congruence. }
  rewrite Hw in HF. exists out. split; [exact E|]. cbv zeta.
  intros tm i l p Hi Hp Hn1 Hn2. apply laids_nth in Hp as (l' & g & q & E1 & E2 & ->). assert (l' = l) as -> by congruence. cbn [l_rows laid] in Hn2. set (n := sum _) in *.
  destruct (HF (t_x tm) (t_y tm)) as (_ & rows & Er & Lr & HR).
  destruct (@line_at _ (map fst gq) i g) as (LB & EB); [rewrite nth_error_map, E2; reflexivity|]. rewrite EB in El.
  assert (En : n = length (concat (firstn i (map fst gq)))) by (unfold n; rewrite length_concat', <- firstn_map, P2, firstn_map; reflexivity).
  rewrite En in *. assert (HW : match sb with None => w = N.to_nat (a_width a) | Some _ => w + 1 = N.to_nat (a_width a) end) by (clear - Hw W; destruct sb; lia).
  eapply (@one_read u k tm out rows (N.to_nat (a_left a)) (N.to_nat (a_top a)) (N.to_nat (a_width a)) w (N.to_nat (a_width a) - 1) (N.to_nat s) sb (txt_lines t) (concat (firstn i (map fst gq))) g LB l q Hn Wh Hb); [eapply clean_area; right; eexists; exact E|exact Er|exact HR|exact HW|exact El| |clear - Hw; destruct sb; lia|lia|lia].
  clear - HM Hi E2. revert i Hi E2. induction HM as [|l0 gq0 text gq M0 _ IH]; intros [|i] Hi E2; try discriminate; cbn in *; [injection Hi as ->; injection E2 as ->; exact M0|eauto].
Qed.
Print Assumptions C101_view.

(** ** A quote which must be wrapped, a block of two lines of code, a rule, a table, an item which must be wrapped and another table *)
Definition whole_text : list MLine :=
  [MNormal (mkMC MQuote [plain (letters 9 ++ [32]%N ++ letters 9)]); MNormal (mkMC MCode [plain [98; 32; 32; 98]%N]); MNormal (mkMC MCode [plain [32; 99]%N]); MHorizontalRule;
   MTableRow [mkMC MParagraph [plain (letters 1)]; mkMC MParagraph [plain (repeat 98%N 2)]]; MTableRow [mkMC MParagraph [plain (letters 4)]];
   MNormal (mkMC (MListItem 0) [plain (letters 9 ++ [32]%N ++ letters 9)]); MTableRow [mkMC MParagraph [plain (repeat 99%N 5)]]].
Lemma whole_source : Forall (area_source demo skin_default 17) whole_text.
Proof.
  assert (HN : forall c, drawn_kind (kind_of (mc_style c)) -> lead skin_default (kind_of (mc_style c)) + 2 <= 17 ->
    (kind_of (mc_style c) = KCode -> sumw (chw demo) (text_of (mc_compounds c)) <= 17) -> area_source demo skin_default 17 (MNormal c)).
  { intros c H0 H1 H2. split; [exact H0|]. intros lm rm (ls & El & Em). destruct (default_margins _ El) as [E1 E2].
    unfold margins_in in Em. rewrite E1, E2 in Em. cbn in Em. injection Em as <- <-. split; [lia|]. intros H. specialize (H2 H). lia. }
  unfold whole_text. repeat (apply Forall_cons; [|]); try apply Forall_nil.
  all: first [exact I | apply HN; [split; [discriminate|cbn; try exact I; lia]|cbn; lia|first [discriminate|intros _; vm_compute; lia]] | split; [discriminate|cbn; lia] | split; [discriminate|split; [cbn; lia|repeat constructor]]].
Qed.
Example C101_example : usual demo no_special skin_default /\ margins_not_just skin_default 18 /\ Forall (area_source demo skin_default 17) whole_text
  /\ is_white demo 32%N = true /\ on_screen (mkArea 3 2 18 13)
  /\ exists out, write_in_area_on demo no_special skin_default 1000 whole_text (mkArea 3 2 18 13) = Ret out
  /\ let tm := term_run demo full_term out in
     map (visible demo) (read_area tm (mkArea 3 2 18 13))
       = [9616%N :: letters 9; 9616%N :: letters 9; [98; 98]%N; [99]%N; repeat 8213%N 18; [9474; 97; 9474; 98; 98; 9474]%N; (9474 :: letters 4 ++ [9474; 9474])%N;
          8226%N :: letters 9; letters 9; (9474 :: repeat 99 5 ++ [9474])%N; []; []; []]
  /\ map (fun y => read_row tm 3 y 18) [4; 5] = [[98; 32; 32; 98]%N ++ spaces 14; [32; 99]%N ++ spaces 16].
Proof.
  split; [exact demo_usual|]. split; [intros kind ls El; destruct (default_margins _ El) as [-> ->]; discriminate|]. split; [exact whole_source|].
  split; [reflexivity|]. split; [split; reflexivity|]. eexists. split; [vm_compute; reflexivity|]. cbv zeta. split; vm_compute; reflexivity.
Qed.
