(** * A text is formatted part by part (C83) *)
From Verif Require Import Base L_Base M_Style M_Fit M_Wrap S_Wrap M_TblFit M_Text S_Text L_Text L_Text2 M_Fitter M_View M_Render S_Render M_Area S_Local Demo P_Wrap P_Text P_Render.
Set Implicit Arguments.
Open Scope nat_scope.

Section Cut.
  Context {A : Type} (p : A -> bool).
  Definition apart (a b : list A) : Prop := starts_out p (rev a) \/ starts_out p b.
  Lemma apart_cut a b : ~ cut p a b <-> apart a b.
  Proof using.
    split.
    - intros H. destruct b as [|y b]; [right; exact I|]. destruct (rev a) as [|x r] eqn:E; [left; unfold apart; rewrite E; exact I|]. unfold apart. rewrite E. cbn [starts_out].
      destruct (p x) eqn:X; [|auto]. destruct (p y) eqn:Y; [|auto]. destruct H. exists (rev r), x, y, b. repeat split; auto. apply (f_equal (@rev A)) in E. rewrite rev_involutive in E. exact E.
    - intros H (a' & x & y & b' & -> & -> & X & Y). destruct H as [H|H]; [rewrite rev_app_distr in H|]; cbn in H; congruence.
  Qed.
  Lemma apart_tail t a b : apart (t ++ a) b -> apart a b.
  Proof using. intros [H|H]; [|right; exact H]. left. rewrite rev_app_distr in H. destruct (rev a); [exact I|exact H]. Qed.
  Lemma runs_app R a b oa ob : by_runs p R a oa -> by_runs p R b ob -> apart a b -> by_runs p R (a ++ b) (oa ++ ob).
  Proof using.
    intros Ha Hb. induction Ha as [|l a oa Hl _ IH|t t' a oa Hn Ht Hs HR _ IH]; intros P; [exact Hb| |].
    - cbn [app]. constructor; [exact Hl|]. apply IH. apply (@apart_tail [l]), P.
    - rewrite <- !app_assoc. constructor; auto; [|apply IH; eapply apart_tail, P]. destruct a as [|x a]; [|exact Hs]. cbn [app]. rewrite app_nil_r in P. destruct P as [P|P]; [|exact P].
      exfalso. destruct (rev t) as [|x r] eqn:E; [apply Hn; apply (f_equal (@rev A)) in E; rewrite rev_involutive in E; exact E|]. rewrite Forall_forall in Ht. cbn in P. rewrite Ht in P; [discriminate|].
      apply in_rev. rewrite E. left. reflexivity.
  Qed.
  Lemma runs_app_inv R l o : by_runs p R l o -> forall a b, l = a ++ b -> apart a b -> exists oa ob, o = oa ++ ob /\ by_runs p R a oa /\ by_runs p R b ob.
  Proof using.
    induction 1 as [|l a0 o Hl H IH|t t' a0 o Hn Ht Hs HR H IH]; intros a b E P.
    - symmetry in E. apply app_eq_nil in E as (-> & ->). exists [], []. repeat constructor.
    - destruct a as [|x a]; cbn [app] in E.
      + subst b. exists [], (l :: o). repeat constructor; assumption.
      + injection E as <- E. destruct (IH _ _ E) as (oa & ob & -> & Ha & Hb); [apply (@apart_tail [l]), P|]. exists (l :: oa), ob. repeat split; [constructor; assumption|assumption].
    - apply app_eq_app in E as (m & [(-> & ->)|(-> & ->)]).
      + destruct m as [|y m].
        * rewrite app_nil_r in *. exists t', o. repeat split; [|exact H]. rewrite <- (app_nil_r a), <- (app_nil_r t'). constructor; auto; constructor.
        * destruct (rev a) as [|x r] eqn:Er.
          { apply (f_equal (@rev A)) in Er. rewrite rev_involutive in Er. cbn in Er. subst a. exists [], (t' ++ o). repeat split; [constructor|]. constructor; assumption. }
          exfalso. apply Forall_app in Ht as (T1 & T2). inversion T2; subst. unfold apart in P. rewrite Er in P. cbn in P. destruct P as [P|P]; [|congruence].
          rewrite Forall_forall in T1. rewrite T1 in P; [discriminate|]. apply in_rev. rewrite Er. left. reflexivity.
      + destruct (IH m b eq_refl) as (oa & ob & -> & Ha & Hb); [eapply apart_tail, P|]. exists (t' ++ oa), ob. rewrite app_assoc. repeat split; [|exact Hb]. constructor; auto. destruct m; [exact I|exact Hs].
  Qed.
  Lemma runs_rev R a b : by_runs p R a b -> by_runs p (fun t t' => R (rev t) (rev t')) (rev a) (rev b).
  Proof using.
    induction 1 as [|l a b Hl _ IH|t t' a b Hn Ht Hs HR _ IH].
    - constructor.
    - cbn [rev]. apply runs_app; [exact IH|constructor; [exact Hl|constructor]|right; exact Hl].
    - rewrite !rev_app_distr. apply runs_app; [exact IH| |left; rewrite rev_involutive; exact Hs]. rewrite <- (app_nil_r (rev t)), <- (app_nil_r (rev t')). constructor; try constructor.
      + intros E. apply Hn. apply (f_equal (@rev A)) in E. rewrite rev_involutive in E. exact E.
      + apply Forall_rev, Ht.
      + rewrite !rev_involutive. exact HR.
  Qed.
  Lemma runs_fun (R : list A -> list A -> Prop) : (forall t x y, R t x -> R t y -> x = y) -> forall a x, by_runs p R a x -> forall y, by_runs p R a y -> x = y.
  Proof using.
    intros F a x H. induction H as [|l a b Hl _ IH|t t' a b Hn Ht Hs HR _ IH]; intros y Y.
    - inversion Y as [| |t t' a b Hn Ht Hs HR H E]; [reflexivity|]. destruct t; [congruence|discriminate].
    - inversion Y as [|l' a' b' Hl' H|t t' a' b' Hn Ht Hs HR H E]; subst; [f_equal; auto|]. destruct t as [|z t]; [congruence|]. injection E as -> E. inversion Ht; congruence.
    - inversion Y as [Z|l' a' b' Hl' H Z|t2 t2' a' b' Hn2 Ht2 Hs2 HR2 H E]; subst.
      + destruct t; [congruence|discriminate].
      + destruct t as [|z t]; [congruence|]. injection Z as -> Z. inversion Ht; congruence.
      + assert (E2 : t2 = t /\ a' = a).
        { apply app_eq_app in E as (m & [(-> & ->)|(-> & ->)]); (destruct m as [|z m]; [rewrite ?app_nil_r; auto|]); exfalso.
          - apply Forall_app in Ht2 as (_ & T). inversion T; subst. cbn in Hs. congruence.
          - apply Forall_app in Ht as (_ & T). inversion T; subst. cbn in Hs2. congruence. }
        destruct E2 as (-> & ->). f_equal; eauto.
  Qed.
  Lemma runs_starts R (q : A -> bool) a b : by_runs p R a b -> (forall t t', t <> [] -> Forall (fun l => p l = true) t -> R t t' -> t' <> [] /\ Forall (fun l => q l = false) t') ->
    starts_out q a -> starts_out q b.
  Proof using.
    intros H F Q. destruct H as [|l a b Hl _|t t' a b Hn Ht Hs HR _]; [exact I|exact Q|]. destruct (F _ _ Hn Ht HR) as (N & G). destruct t' as [|x t']; [congruence|]. inversion G; subst. assumption.
  Qed.
End Cut.

(** ** Tables *)

Lemma tables_app u k w a b : apart is_table a b ->
  forall o, fix_all_tables u k (a ++ b) w = Ret o <-> exists oa ob, fix_all_tables u k a w = Ret oa /\ fix_all_tables u k b w = Ret ob /\ o = oa ++ ob.
Proof.
  intros P o. rewrite fix_all_iff. split.
  - intros H. destruct (runs_app_inv H eq_refl P) as (oa & ob & -> & Ha & Hb). exists oa, ob. rewrite !fix_all_iff. auto.
  - intros (oa & ob & Ha & Hb & ->). rewrite fix_all_iff in Ha, Hb. apply runs_app; assumption.
Qed.
Lemma laid_tables u k w t t' : t <> [] -> Forall (fun l => is_table l = true) t -> laid_out u k w t t' -> t' <> [] /\ Forall (fun l => is_code l = false) t'.
Proof.
  assert (T : forall l, Forall (fun l => is_table l = true) l -> Forall (fun l => is_code l = false) l) by (intros l; apply Forall_impl; intros []; cbn; congruence).
  assert (Al : forall rm ws f als r r', aligned rm ws f als r r' -> (r <> [] -> r' <> []) /\ Forall (fun l => is_table l = true) r').
  { induction 1 as [| |]; (split; [congruence|]); repeat constructor; try tauto. }
  assert (L : forall ws t gs, Forall2 (row_group u k ws) t gs -> t <> [] -> concat gs <> []).
  { intros ws t0 gs F N E. apply row_group_len in F. rewrite E in F. destruct t0; [congruence|cbn in F; lia]. }
  intros N F H. destruct H as [_ ->|ws gs _ _ _ _ G H|ws gs _ _ G H]; [auto| |]; apply Al in H as (H1 & H2); (split; [|auto]); apply H1.
  - eapply L; [exact G|]. destruct t; [congruence|discriminate].
  - eapply L; eassumption.
Qed.
Lemma tables_apart u k w a b oa ob : fix_all_tables u k a w = Ret oa -> fix_all_tables u k b w = Ret ob -> apart is_code a b -> apart is_code oa ob.
Proof.
  rewrite !fix_all_iff. intros Ha Hb [P|P]; [left|right].
  - apply runs_rev in Ha. eapply runs_starts; [exact Ha| |exact P]. intros t t' N F H. cbv beta in H. apply laid_tables in H.
    + destruct H as (H1 & H2). split; [intros ->; apply H1; reflexivity|]. apply Forall_rev in H2. rewrite rev_involutive in H2. exact H2.
    + intros E. apply N. apply (f_equal (@rev _)) in E. rewrite rev_involutive in E. exact E.
    + apply Forall_rev, F.
  - eapply runs_starts; [exact Hb| |exact P]. intros t t' N F H. eapply laid_tables; eassumption.
Qed.

(** ** Blocks of code *)

Lemma justify_app a b : apart is_code a b -> justify_blocks (a ++ b) = justify_blocks a ++ justify_blocks b.
Proof.
  assert (J : forall l, by_runs is_code (fun t t' => t' = map (justify_line (max_size code_line_length t)) t) l (justify_blocks l)).
  { intros l. destruct (@fold_runs_fwd _ code_line_length justify justify_line) with (l := l) (pre := @nil FmtLine) as (l' & E & H); [intros; apply justify_pos|].
    cbn [app length] in E. unfold justify_blocks, find_blocks. rewrite E. clear E.
    assert (Hsz : forall l, sized code_line_length l = is_code l) by (intros [fc| | |]; try reflexivity; unfold sized, code_line_length, is_code; destruct (fc_kind fc); reflexivity).
    induction H as [|x a' b' Hl _ IH|t t' a' b' Hn Ht Ha -> _ IH]; [constructor|..].
    - constructor; [rewrite <- Hsz; exact Hl|exact IH].
    - constructor; auto; [eapply Forall_impl; [|exact Ht]; intros x; cbv beta; rewrite Hsz; auto|]. destruct a'; [exact I|cbn in *; rewrite <- Hsz; exact Ha]. }
  intros P. eapply runs_fun; [|apply J|apply runs_app; [apply J|apply J|exact P]]. cbv beta. congruence.
Qed.

(** ** Wrapping, writing *)

Lemma wrap_app u k w : forall a b o, hard_wrap_lines u k (a ++ b) w = Ret (Some o)
  <-> exists oa ob, hard_wrap_lines u k a w = Ret (Some oa) /\ hard_wrap_lines u k b w = Ret (Some ob) /\ o = oa ++ ob.
Proof.
  intros a b. induction a as [|l a IH]; intros o.
  { cbn [app hard_wrap_lines]. split; [intros E; exists [], o; auto|]. intros (oa & ob & E & H & ->). injection E as <-. exact H. }
  assert (K : forall (f : list FmtLine -> list FmtLine) (H : forall x y, f (x ++ y) = f x ++ y),
    (o' <- hard_wrap_lines u k (a ++ b) w ;; Ret (option_map f o')) = Ret (Some o)
    <-> exists oa ob, (o' <- hard_wrap_lines u k a w ;; Ret (option_map f o')) = Ret (Some oa) /\ hard_wrap_lines u k b w = Ret (Some ob) /\ o = oa ++ ob).
  { intros f H. split.
    - intros E. apply bind_Ret_inv in E as ([r|] & E1 & E2); [|discriminate]. injection E2 as <-. apply IH in E1 as (oa & ob & E1 & E2 & ->). exists (f oa), ob. rewrite E1. cbn. auto.
    - intros (oa & ob & E1 & E2 & ->). apply bind_Ret_inv in E1 as ([r|] & E1 & E3); [|discriminate]. injection E3 as <-.
      assert (E : hard_wrap_lines u k (a ++ b) w = Ret (Some (r ++ ob))) by (apply IH; eauto). rewrite E. cbn. rewrite H. reflexivity. }
  destruct l as [fc| | |]; cbn [app hard_wrap_lines]; try (apply K; reflexivity).
  destruct (line_style k (fc_kind fc)) as [ls| |]; cbn [bind]; try (split; [discriminate|intros (? & ? & ? & _); discriminate]). destruct (margins_in ls (Some w)) as (lm & rm).
  destruct (_ <=? _); [apply K; reflexivity|]. destruct (csub w lm) as [w1| |]; cbn [bind]; try (split; [discriminate|intros (? & ? & ? & _); discriminate]).
  destruct (csub w1 rm) as [w2| |]; cbn [bind]; try (split; [discriminate|intros (? & ? & ? & _); discriminate]).
  destruct (hard_wrap_composite u k fc w2) as [[fcs|]| |]; cbn [bind]; try (split; [discriminate|intros (? & ? & ? & _); discriminate]).
  apply K. intros; apply app_assoc.
Qed.
Lemma display_app special k w : forall a b o, display_lines special k (a ++ b) w = Ret o
  <-> exists oa ob, display_lines special k a w = Ret oa /\ display_lines special k b w = Ret ob /\ o = oa ++ ob.
Proof.
  intros a b. induction a as [|l a IH]; intros o; cbn [app display_lines].
  { split; [intros E; exists [], o; auto|]. intros (oa & ob & E & H & ->). injection E as <-. exact H. }
  destruct (write_fmt_line special k l w false) as [x| |]; cbn [bind]; try (split; [discriminate|intros (? & ? & ? & _); discriminate]). split.
  - intros E. apply bind_Ret_inv in E as (r & E1 & E2). injection E2 as <-. apply IH in E1 as (oa & ob & E1 & E2 & ->). rewrite E1. cbn [bind]. eexists _, ob. split; [reflexivity|]. split; [exact E2|].
    rewrite <- app_assoc. reflexivity.
  - intros (oa & ob & E1 & E2 & ->). apply bind_Ret_inv in E1 as (r & E1 & E3). injection E3 as <-. assert (E : display_lines special k (a ++ b) w = Ret (r ++ ob)) by (apply IH; eauto).
    rewrite E. cbn [bind]. rewrite <- app_assoc. reflexivity.
Qed.

(** ** The theorems *)

Lemma separate_apart u k a b : separate a b -> apart is_table (map (line_from u k) a) (map (line_from u k) b) /\ apart is_code (map (line_from u k) a) (map (line_from u k) b).
Proof.
  assert (S : forall (p : MLine -> bool) (q : FmtLine -> bool), (forall l, q (line_from u k l) = p l) -> apart p a b -> apart q (map (line_from u k) a) (map (line_from u k) b)).
  { intros p q H [P|P]; [left; rewrite <- map_rev; destruct (rev a)|right; destruct b]; cbn in *; auto; rewrite H; exact P. }
  intros (P & Q). apply apart_cut in P, Q. split; [apply (S of_table); [|exact P]; intros []; reflexivity|].
  apply (S of_code); [|exact Q]. intros []; try reflexivity. cbn. destruct (mc_style c); reflexivity.
Qed.
(** Formatting two parts together is formatting each of them *)
Theorem C83_formatted : forall u k usize_max a b width, separate a b ->
  forall t, from_text u k usize_max (a ++ b) width = Ret t
  <-> exists ta tb, from_text u k usize_max a width = Ret ta /\ from_text u k usize_max b width = Ret tb /\ t = mkText (txt_lines ta ++ txt_lines tb) width.
Proof.
  intros u k um a b width H t. destruct (separate_apart u k H) as (H1 & H2). unfold from_text. rewrite map_app. set (w := match width with Some w => w | None => um end). split.
  - intros E. apply bind_Ret_inv in E as (o & E1 & E). apply tables_app in E1 as (oa & ob & Ea & Eb & ->); [|exact H1]. rewrite Ea, Eb. cbn [bind].
    rewrite (justify_app (@tables_apart u k w _ _ _ _ Ea Eb H2)) in E. destruct width as [w'|].
    2: { injection E as <-. eexists _, _. split; [reflexivity|]. split; reflexivity. }
    destruct (3 <=? w').
    + apply bind_Ret_inv in E as ([o|] & E1 & E); [|discriminate]. injection E as <-. apply wrap_app in E1 as (xa & xb & Ea' & Eb' & ->). rewrite Ea', Eb'. cbn [bind]. eexists _, _. split; [reflexivity|]. split; reflexivity.
    + injection E as <-. eexists _, _. split; [reflexivity|]. split; reflexivity.
  - intros (ta & tb & Ea & Eb & ->). apply bind_Ret_inv in Ea as (oa & Ea & Fa). apply bind_Ret_inv in Eb as (ob & Eb & Fb).
    assert (E : fix_all_tables u k (map (line_from u k) a ++ map (line_from u k) b) w = Ret (oa ++ ob)) by (apply tables_app; eauto). rewrite E. cbn [bind]. clear E.
    rewrite (justify_app (@tables_apart u k w _ _ _ _ Ea Eb H2)). destruct width as [w'|].
    2: { injection Fa as <-. injection Fb as <-. reflexivity. }
    destruct (3 <=? w').
    + apply bind_Ret_inv in Fa as ([xa|] & Ea' & Fa); [|discriminate]. apply bind_Ret_inv in Fb as ([xb|] & Eb' & Fb); [|discriminate]. injection Fa as <-. injection Fb as <-.
      assert (E : hard_wrap_lines u k (justify_blocks oa ++ justify_blocks ob) w' = Ret (Some (xa ++ xb))) by (apply wrap_app; eauto). rewrite E. reflexivity.
    + injection Fa as <-. injection Fb as <-. reflexivity.
Qed.
Print Assumptions C83_formatted.
(** Printing a text is printing its parts one after the other *)
Theorem C83_printed : forall u special k usize_max a b size, separate a b ->
  forall out, print_text u special k usize_max (a ++ b) size = Ret out
  <-> exists oa ob, print_text u special k usize_max a size = Ret oa /\ print_text u special k usize_max b size = Ret ob /\ out = oa ++ ob.
Proof.
  intros u special k um a b size H out. unfold print_text, term_text. destruct (terminal_size size) as (w & h).
  assert (Wd : forall text t, from_text u k um text (Some (N.to_nat w)) = Ret t -> txt_width t = Some (N.to_nat w)).
  { intros text t. unfold from_text. intros E. apply bind_Ret_inv in E as (o & _ & E). destruct (3 <=? _); [|injection E as <-; reflexivity]. apply bind_Ret_inv in E as ([x|] & _ & E); [|discriminate]. injection E as <-. reflexivity. }
  split.
  - intros E. apply bind_Ret_inv in E as (t & Et & E). apply C83_formatted in Et as (ta & tb & Ea & Eb & ->); [|exact H]. rewrite Ea, Eb. cbn [bind].
    unfold display_text in *. rewrite (Wd _ _ Ea), (Wd _ _ Eb). cbn [txt_lines txt_width] in E. apply display_app in E. exact E.
  - intros (oa & ob & Ea & Eb & ->). apply bind_Ret_inv in Ea as (ta & Ta & Ea). apply bind_Ret_inv in Eb as (tb & Tb & Eb).
    assert (E : from_text u k um (a ++ b) (Some (N.to_nat w)) = Ret (mkText (txt_lines ta ++ txt_lines tb) (Some (N.to_nat w)))) by (apply C83_formatted; eauto). rewrite E. cbn [bind].
    unfold display_text in *. rewrite (Wd _ _ Ta) in Ea. rewrite (Wd _ _ Tb) in Eb. cbn [txt_lines txt_width]. apply display_app. eauto.
Qed.
Print Assumptions C83_printed.
(** The lines out of tables and of code are formatted one by one *)
Theorem C83_each_line : forall u k usize_max width text, Forall (fun l => of_table l = false /\ of_code l = false) text ->
  forall t, from_text u k usize_max text width = Ret t <-> exists ls, Forall2 (fun l ls => from_text u k usize_max [l] width = Ret (mkText ls width)) text ls /\ t = mkText (concat ls) width.
Proof.
  intros u k um width text. induction text as [|l text IH]; intros F t.
  - assert (E : from_text u k um [] width = Ret (mkText [] width)) by (destruct width as [[|[|[|w]]]|]; reflexivity). rewrite E. split.
    + intros X. injection X as <-. exists []. split; [constructor|reflexivity].
    + intros (ls & H & ->). inversion H; subst. reflexivity.
  - inversion F as [|? ? (L1 & L2) F']; subst. specialize (IH F'). assert (H : separate [l] text).
    { split; intros (a' & x & y & b' & E & _ & X & _); destruct a' as [|? [|]]; try discriminate; injection E as <-; congruence. }
    assert (Wd : forall text t, from_text u k um text width = Ret t -> txt_width t = width).
    { clear. intros text t. unfold from_text. intros E. apply bind_Ret_inv in E as (o & _ & E). destruct width as [w|]; [|injection E as <-; reflexivity]. destruct (3 <=? _); [|injection E as <-; reflexivity].
      apply bind_Ret_inv in E as ([x|] & _ & E); [|discriminate]. injection E as <-. reflexivity. }
    change (l :: text) with ([l] ++ text) at 1. rewrite (C83_formatted u k um width H). split.
    + intros (ta & tb & Ea & Eb & ->). apply IH in Eb as (ls & G & ->). exists (txt_lines ta :: ls). split; [|reflexivity]. constructor; [|exact G]. rewrite Ea. f_equal. destruct ta as [x y]. apply Wd in Ea. cbn in *. congruence.
    + intros (ls & G & ->). inversion G as [|? x ? ls' Gx Gs]; subst. exists (mkText x width), (mkText (concat ls') width). split; [exact Gx|]. split; [apply IH; eauto|reflexivity].
Qed.
Print Assumptions C83_each_line.

(** ** Examples *)

(** Parts of a text with all kinds of lines *)
Example C83_example : let a := firstn 4 small_text in let b := skipn 4 small_text in
  separate a b /\ length a = 4 /\ length b = 6 /\ exists out oa ob, print_text demo no_special skin_default 1000 small_text (Some (14, 30)%N) = Ret out
  /\ print_text demo no_special skin_default 1000 a (Some (14, 30)%N) = Ret oa /\ print_text demo no_special skin_default 1000 b (Some (14, 30)%N) = Ret ob /\ out = oa ++ ob /\ length oa = 30 /\ length ob = 60.
Proof.
  cbv zeta. split; [|split; [reflexivity|split; [reflexivity|]]].
  - split; apply apart_cut; left; vm_compute; reflexivity.
  - eexists _, _, _. split; [vm_compute; reflexivity|]. split; [vm_compute; reflexivity|]. split; [vm_compute; reflexivity|]. split; [reflexivity|]. split; reflexivity.
Qed.
(** A table cut in two isn't formatted the same; a block of code neither *)
Example C83_cut : (exists ta tb t, from_text demo skin_default 1000 [row [3; 9]] (Some 30) = Ret ta /\ from_text demo skin_default 1000 [row [9; 1]] (Some 30) = Ret tb
    /\ from_text demo skin_default 1000 [row [3; 9]; row [9; 1]] (Some 30) = Ret t /\ txt_lines t <> txt_lines ta ++ txt_lines tb)
  /\ let code n := MNormal (mkMC MCode [plain (letters n)]) in exists ta tb t, from_text demo skin_default 1000 [code 2] (Some 30) = Ret ta /\ from_text demo skin_default 1000 [code 3] (Some 30) = Ret tb
    /\ from_text demo skin_default 1000 [code 2; code 3] (Some 30) = Ret t /\ txt_lines t <> txt_lines ta ++ txt_lines tb.
Proof.
  split; eexists _, _, _; (split; [vm_compute; reflexivity|]); (split; [vm_compute; reflexivity|]); (split; [vm_compute; reflexivity|]); vm_compute; discriminate.
Qed.
