(** * C88: no other way to cut between the words takes less lines *)
From Verif Require Import Base L_Base Demo M_Style M_Fit M_Wrap S_Wrap S_Taller L_Wrap M_Text P_Text P_Taller S_Optimal.
Set Implicit Arguments.

(** ** The state of the loop: the index of the line and the column *)
Definition step (d w : nat) (st : nat * nat) (t : bool * nat) : nat * nat :=
  if w <? snd st + snd t then if fst t then st else (S (fst st), d + snd t) else (fst st, snd st + snd t).
Definition sizes (ts : list Token) : list (bool * nat) := map (fun t => (blank t, t_width t)) ts.

Lemma wrap_steps u k d width : additive u -> forall ts cs dst lines n, Forall2 (tok_basic u) ts cs ->
  lead k (next_kind (fc_kind dst)) = d -> wrap_tokens u k width ts dst = Ret lines ->
  n + length lines = S (fst (fold_left (step d width) (sizes ts) (n, visible_length dst))).
Proof.
  intros Hu. induction ts as [|t ts IH]; intros cs dst lines n HF; inversion HF as [|? x ? cs' Ht HF']; subst; intros Hk; cbn [wrap_tokens sizes map fold_left].
  - intros E. injection E as <-. cbn. lia.
  - fold (sizes ts). unfold step at 2. cbn [fst snd]. destruct Ht as (T1 & _ & T2 & _). rewrite T1.
    destruct (Nat.ltb_spec width (visible_length dst + t_width t)).
    + destruct (blank t) eqn:B; cbn [negb]; [apply IH with (1 := HF'); auto|]. rewrite bind_ret. intros E. apply bind_Ret_inv in E as (rest & E1 & E2). injection E2 as <-. cbn [length].
      replace (n + S (length rest)) with (S n + length rest) by lia.
      rewrite (IH cs' (add_compound u (follow_up_composite k dst) x) rest (S n) HF'); [|rewrite follow_up_eq; cbn [add_compound fc_kind]; rewrite next_next; exact Hk|exact E1].
      rewrite follow_up_eq. cbn [add_compound visible_length]. rewrite Hk, Hu, T2. reflexivity.
    + rewrite bind_ret. intros E. rewrite (IH cs' (add_compound u dst x) lines n HF'); [|exact Hk|exact E]. cbn [add_compound visible_length]. rewrite Hu, T2. reflexivity.
Qed.

(** ** Tokens are parts of the pieces *)
Section refine.
  Context (f : char -> bool).
  Lemma take_piece b s rest : Forall (fun ch => f ch = b) s -> match rest with ch :: _ => f ch <> b | [] => True end ->
    forall cs, concat cs = s ++ rest -> Forall (fun c => c <> [] /\ exists b', Forall (fun ch => f ch = b') c) cs ->
    exists g r, cs = g ++ r /\ concat g = s /\ concat r = rest.
  Proof.
    intros Hs Hr cs. revert s Hs. induction cs as [|c cs IH]; intros s Hs E F.
    - cbn in E. symmetry in E. apply app_eq_nil in E as [-> ->]. exists [], []. auto.
    - destruct s as [|x s]; [exists [], (c :: cs); auto|]. inversion F as [|? ? (Nc & b' & Hc) F']; subst. cbn [concat] in E.
      apply app_eq_app in E as (m & [(Ec & Em)|(Ec & Em)]).
      + (* the piece is inside the token *)
        destruct m as [|y m].
        * rewrite app_nil_r in Ec. cbn in Em. exists [c], cs. cbn. rewrite app_nil_r. auto.
        * exfalso. subst. cbn in Hr. rewrite Forall_app in Hc. destruct Hc as [H1 H2]. inversion H1; subst. inversion H2; subst. inversion Hs; subst. congruence.
      + rewrite Ec in Hs. rewrite Forall_app in Hs. destruct Hs as [_ Hm]. destruct (IH m Hm Em F') as (g & r & -> & <- & E2).
        exists (c :: g), r. cbn. auto.
  Qed.
  Lemma refine : forall ps cs, alternating ps -> Forall (fun p => snd p <> [] /\ Forall (fun ch => f ch = fst p) (snd p)) ps ->
    concat cs = concat (map snd ps) -> Forall (fun c => c <> [] /\ exists b', Forall (fun ch => f ch = b') c) cs ->
    exists css, cs = concat css /\ Forall2 (fun p g => concat g = snd p) ps css.
  Proof.
    induction ps as [|[b s] ps IH]; intros cs A P E F.
    - exists []. cbn in E. split; [|constructor]. destruct cs as [|c cs]; [reflexivity|]. inversion F as [|? ? (N & _) _]; subst. cbn in E. apply app_eq_nil in E. tauto.
    - inversion P as [|? ? (N & Hs) P']; subst. destruct A as [A1 A2]. cbn [map snd concat] in E.
      destruct (@take_piece b s (concat (map snd ps))) with (cs := cs) as (g & r & -> & E1 & E2); auto.
      + destruct ps as [|[b' s'] ps]; [exact I|]. inversion P' as [|? ? (N' & Hs') _]; subst. cbn in *. destruct s'; [congruence|]. cbn. inversion Hs'; subst. congruence.
      + rewrite Forall_app in F. destruct F as [F1 F2]. destruct (IH r A2 P' E2 F2) as (css & -> & H). exists (g :: css). split; [reflexivity|]. constructor; auto.
  Qed.
End refine.

(** a piece and the sizes of its tokens *)
Definition covers (u : unicode) (p : piece) (g : list (bool * nat)) : Prop :=
  Forall (fun t => fst t = fst p) g /\ sum (map snd g) = sumw (chw u) (snd p).

Lemma F2_concat {A B} (R : A -> B -> Prop) : forall gs ts, Forall2 R ts (concat gs) -> exists tss, ts = concat tss /\ Forall2 (Forall2 R) tss gs.
Proof.
  induction gs as [|g gs IH]; cbn; intros ts H.
  - inversion H; subst. exists []. split; [reflexivity|constructor].
  - apply Forall2_app_inv_r in H as (a & b & H1 & H2 & ->). destruct (IH _ H2) as (tss & -> & H3). exists (a :: tss). split; [reflexivity|constructor; assumption].
Qed.
Lemma map_concat_inv {A B} (f : A -> B) : forall gs l, map f l = concat gs -> exists ls, l = concat ls /\ gs = map (map f) ls.
Proof.
  induction gs as [|g gs IH]; cbn; intros l H.
  - apply map_eq_nil in H. subst. exists []. auto.
  - apply map_eq_app in H as (a & b & -> & <- & H2). destruct (IH _ H2) as (ls & -> & ->). exists (a :: ls). auto.
Qed.

Lemma covers_one u max c ps : cut_into u c ps -> exists gs, sizes (tokenize_loop u c max (src c) 0 None) = concat gs /\ Forall2 (covers u) ps gs.
Proof.
  intros (E & A & P). destruct (tokenize_one u c max) as (cs & HF & Es & _).
  destruct (@refine (is_blank u (c_code c)) ps (map src cs)) as (css & Ec & HR); auto.
  - rewrite <- flat_map_concat_map, Es. symmetry. exact E.
  - apply Forall_forall. intros s Hs. apply in_map_iff in Hs as (c' & <- & Hc). destruct (Forall2_r_in HF _ Hc) as (t & _ & T). split; [apply T|]. exists (blank t). destruct T as (_ & _ & _ & _ & _ & T & _). exact T.
  - destruct (map_concat_inv _ _ _ Ec) as (gs & -> & ->). destruct (F2_concat _ HF) as (tss & -> & HT). exists (map sizes tss). split; [unfold sizes; rewrite concat_map; reflexivity|].
    clear - HR HT P. revert ps HR P. induction HT as [|ts g tss gs H HT IH]; cbn; intros ps HR P; inversion HR as [|p ? ps' ? E HR']; subst; constructor.
    + inversion P as [|? ? (N & Hb) _]; subst. clear - H E Hb. destruct p as [b s]. cbn in *. subst s. induction H as [|t c' ts g T H IH]; cbn in *; [split; [constructor|reflexivity]|].
      rewrite Forall_app in Hb. destruct Hb as [B1 B2]. destruct (IH B2) as [I1 I2]. destruct T as (_ & _ & _ & Ne & W & B & _). split.
      * constructor; [|exact I1]. cbn. destruct (src c') as [|ch s']; [congruence|]. inversion B; subst. inversion B1; subst. unfold is_blank in *. congruence.
      * cbn [map snd fst]. cbn [map snd] in I2. rewrite sumw_app, W, <- I2. reflexivity.
    + apply IH; [exact HR'|]. inversion P; assumption.
Qed.
Lemma covers_all u max cs ps : pieces_of u cs ps -> exists gs, sizes (tokenize u cs max) = concat gs /\ Forall2 (covers u) ps gs.
Proof.
  intros (pss & H & ->). induction H as [|c p cs pss H1 H IH]; cbn [tokenize flat_map concat].
  - exists []. split; [reflexivity|constructor].
  - destruct (covers_one max H1) as (g1 & E1 & C1). destruct IH as (g2 & E2 & C2). exists (g1 ++ g2). split; [|apply Forall2_app; assumption].
    unfold sizes in *. rewrite map_app, concat_app, E1. f_equal. exact E2.
Qed.

(** ** Whoever cuts otherwise isn't ahead *)
Section ahead.
  Context (u : unicode) (d w : nat).
  (** the loop is at (n, c) when another cut is at (j, e) *)
  Definition behind (st : nat * nat) (j e : nat) : Prop := fst st < j /\ d <= e \/ fst st = j /\ snd st <= e.

  Lemma word_behind : forall (g : list (bool * nat)) j e st, behind st j e -> Forall (fun t => fst t = false) g ->
    e + sum (map snd g) <= w -> behind (fold_left (step d w) g st) j (e + sum (map snd g)).
  Proof.
    induction g as [|[b t] g IH]; intros j e st B F H; cbn [map sum fold_left snd] in *; [rewrite Nat.add_0_r; exact B|].
    inversion F as [|? ? Fb F']; subst. cbn in Fb. subst b. replace (e + (t + sum (map snd g))) with (e + t + sum (map snd g)) in * by lia. apply IH; auto.
    destruct st as [n c]. unfold step, behind in *. cbn [fst snd] in *. destruct (Nat.ltb_spec w (c + t)); cbn [fst snd]; lia.
  Qed.
  Lemma blank_behind : forall (g : list (bool * nat)) j e st, behind st j e -> Forall (fun t => fst t = true) g ->
    e + sum (map snd g) <= w -> behind (fold_left (step d w) g st) j (e + sum (map snd g)).
  Proof.
    induction g as [|[b t] g IH]; intros j e st B F H; cbn [map sum fold_left snd] in *; [rewrite Nat.add_0_r; exact B|].
    inversion F as [|? ? Fb F']; subst. cbn in Fb. subst b. replace (e + (t + sum (map snd g))) with (e + t + sum (map snd g)) in * by lia. apply IH; auto.
    destruct st as [n c]. unfold step, behind in *. cbn [fst snd] in *. destruct (Nat.ltb_spec w (c + t)); cbn [fst snd]; lia.
  Qed.
  Lemma line_behind : forall l gs j e st, Forall2 (covers u) l gs -> behind st j e -> e + line_width u l <= w ->
    behind (fold_left (step d w) (concat gs) st) j (e + line_width u l).
  Proof.
    induction l as [|[b s] l IH]; intros gs j e st F B H; inversion F as [|? g ? gs' (C1 & C2) F']; subst; cbn [concat fold_left]; unfold line_width in *; cbn [map concat snd] in *.
    - change (sumw (chw u) []) with 0. rewrite Nat.add_0_r. exact B.
    - rewrite sumw_app in *. rewrite fold_left_app. rewrite Nat.add_assoc in *. apply IH; [exact F'| |exact H]. rewrite <- C2 in *. destruct b; [apply blank_behind|apply word_behind]; auto; lia.
  Qed.
  Lemma gap_line : forall g st, Forall (fun t => fst t = true) g -> fst (fold_left (step d w) g st) = fst st.
  Proof.
    induction g as [|[b t] g IH]; intros st F; [reflexivity|]. inversion F as [|? ? Fb F']; subst. cbn in Fb. subst b. cbn [fold_left]. rewrite IH by exact F'.
    unfold step. cbn [fst snd]. destruct (w <? snd st + t); reflexivity.
  Qed.
  Lemma gap_covers : forall b gs, Forall2 (covers u) b gs -> Forall (fun p => fst p = true) b -> Forall (fun t => fst t = true) (concat gs).
  Proof.
    induction 1 as [|p g b gs (C1 & _) F IH]; intros H; cbn; [constructor|]. inversion H as [|? ? Hp H']; subst. apply Forall_app. split; [|apply IH; exact H'].
    eapply Forall_impl; [|exact C1]. cbn. congruence.
  Qed.
  (** whatever the layout, the loop doesn't end on a further line *)
  Lemma layout_behind : forall ps lines, layout ps lines -> forall gs j e st, Forall2 (covers u) ps gs -> behind st j e -> fits u e d w lines ->
    fst (fold_left (step d w) (concat gs) st) < j + length lines.
  Proof.
    induction 1 as [l b Hb|l b r ls Hb HL IH]; intros gs j e st F B (F1 & F2).
    - apply Forall2_app_inv_l in F as (g1 & g2 & C1 & C2 & ->). rewrite concat_app, fold_left_app, gap_line by (eapply gap_covers; eassumption).
      pose proof (line_behind C1 B F1) as [(X & _)|(X & _)]; cbn [length]; lia.
    - apply Forall2_app_inv_l in F as (g1 & g23 & C1 & C23 & ->). apply Forall2_app_inv_l in C23 as (g2 & g3 & C2 & C3 & ->).
      rewrite !concat_app, !fold_left_app. cbn [length]. replace (j + S (length ls)) with (S j + length ls) by lia. eapply IH with (e := d); [exact C3| |].
      + left. rewrite gap_line by (eapply gap_covers; eassumption). pose proof (line_behind C1 B F1) as [(X & _)|(X & _)]; lia.
      + destruct ls as [|l' ls]; [inversion HL|]. inversion F2; subst. split; assumption.
  Qed.
End ahead.

Lemma pieces_width u cs ps : pieces_of u cs ps -> sumw (chw u) (text_of cs) = line_width u ps.
Proof.
  intros (pss & H & ->). unfold line_width, text_of. induction H as [|c p cs pss (E & _) H IH]; [reflexivity|]. cbn [flat_map concat]. rewrite map_app, concat_app, !sumw_app, IH. f_equal. f_equal. symmetry. exact E.
Qed.
Lemma layout_pos ps lines : layout ps lines -> 1 <= length lines.
Proof. destruct 1; cbn; lia. Qed.

(** However the words are put on lines, there are at least as many lines *)
Theorem C88_optimal_partial : forall u k fc w n ps lines, additive u -> length_ok u k fc -> tall u k fc w n ->
  pieces_of u (fc_compounds fc) ps -> ~ blank_end ps ->
  layout ps lines -> fits u (lead k (fc_kind fc)) (lead k (next_kind (fc_kind fc))) w lines -> n <= length lines.
Proof.
  intros u k fc w n ps lines Hu Hok Ht Hp Hb HL HF. pose proof (layout_pos HL) as Pos. destruct Ht as [(_ & ->)|(Hv & ls & E & ->)]; [exact Pos|].
  destruct (wrap_inv _ _ _ _ E) as (_ & _ & [(a & b & _ & ->)|(_ & _ & Et)]); cbn zeta in *.
  - cbn [length]. destruct lines as [|l [|l' lines]]; [cbn in Pos; lia| |cbn; lia]. exfalso. destruct HF as [HF _].
    inversion HL as [l0 b0 Hb0 E1 E2|? ? ? ? ? HL' E1 E2]; subst; [|inversion HL'].
    destruct b0 as [|p b0 _] using rev_ind.
    + rewrite app_nil_r in *. apply pieces_width in Hp. unfold length_ok, shown in Hok. rewrite Hp in Hok. lia.
    + apply Hb. destruct p as [bl s]. rewrite Forall_app in Hb0. destruct Hb0 as [_ Hb0]. inversion Hb0 as [|? ? X _]; subst. cbn in X. subst bl. exists (l ++ b0), s. apply app_assoc.
  - destruct (covers_all (w - lead k (fc_kind fc)) Hp) as (gs & Eg & HC). destruct (tokens_basic u (w - lead k (fc_kind fc)) (fc_compounds fc)) as (cs & HB & _).
    pose proof (@wrap_steps u k (lead k (next_kind (fc_kind fc))) w Hu _ _ (mkFC (fc_kind fc) [] (lead k (fc_kind fc)) (fc_spacing fc)) _ 0 HB eq_refl Et) as X. cbn [visible_length fc_kind] in X. rewrite Eg in X.
    pose proof (@layout_behind u (lead k (next_kind (fc_kind fc))) w ps lines HL gs 0 (lead k (fc_kind fc)) (0, lead k (fc_kind fc)) HC) as Y.
    specialize (Y (or_intror (conj eq_refl (le_n _))) HF). lia.
Qed.
Print Assumptions C88_optimal_partial.

(** Every text has such words *)
Lemma cut_exists u c : exists ps, cut_into u c ps.
Proof.
  unfold cut_into. generalize (src c) as s. induction s as [|ch s (ps & E & A & P)]; [exists []; cbn; repeat split; constructor|].
  destruct ps as [|[b t] ps].
  - exists [(is_blank u (c_code c) ch, [ch])]. cbn in *. subst s. repeat split. constructor; [|constructor]. cbn. split; [discriminate|]. constructor; [reflexivity|constructor].
  - inversion P as [|? ? (N & Ht) P']; subst. cbn [map snd concat fst] in *. destruct (Bool.bool_dec (is_blank u (c_code c) ch) b) as [Eb|Nb].
    + exists ((b, ch :: t) :: ps). cbn [map snd concat]. split; [reflexivity|]. split; [exact A|]. constructor; [|exact P']. cbn [fst snd]. split; [discriminate|]. constructor; assumption.
    + exists ((is_blank u (c_code c) ch, [ch]) :: (b, t) :: ps). split; [reflexivity|]. split; [split; [exact Nb|exact A]|]. constructor; [|exact P]. cbn [fst snd]. split; [discriminate|]. constructor; [reflexivity|constructor].
Qed.
Theorem C88_pieces : forall u cs, exists ps, pieces_of u cs ps /\ concat (map snd ps) = text_of cs.
Proof.
  intros u cs. induction cs as [|c cs (ps & (pss & H & ->) & E)]; [exists []; split; [exists []; split; [constructor|reflexivity]|reflexivity]|].
  destruct (cut_exists u c) as (p & Hp). exists (p ++ concat pss). split; [exists (p :: pss); split; [constructor; assumption|reflexivity]|].
  rewrite map_app, concat_app. destruct Hp as (Ep & _). change (text_of (c :: cs)) with (src c ++ text_of cs). f_equal; assumption.
Qed.
Print Assumptions C88_pieces.

(** ** The number of lines is reached *)
Lemma maximal_tail u max code : forall g r, maximal u max code (g ++ r) -> maximal u max code r.
Proof. induction g as [|x g IH]; intros r H; [exact H|]. apply IH. cbn in H. inversion H; [constructor|assumption]. Qed.
Lemma maximal_single u max code b s g r : maximal u max code (g ++ r) -> concat g = s -> s <> [] -> Forall (fun c => c <> []) g ->
  Forall (fun ch => is_blank u code ch = b) s -> sumw (chw u) s <= max -> g = [s].
Proof.
  intros H E N F B W. destruct g as [|x [|y g]]; [cbn in E; congruence|cbn in E; rewrite app_nil_r in E; congruence|exfalso]. inversion F as [|? ? Nx F']; subst. inversion F' as [|? ? Ny _]; subst.
  cbn [app] in H. inversion H as [|?|? c q ? D _ E1]; subst. cbn [concat] in *. rewrite !Forall_app in B. destruct B as (Bx & By & _). inversion By as [|? ? Bc _]; subst. destruct D as [D|D].
  - destruct x as [|a x]; [congruence|]. inversion D as [|? ? D1 _]; subst. inversion Bx as [|? ? B1 _]; subst. destruct (is_blank u code c), (is_blank u code a); discriminate.
  - rewrite !sumw_app, sumw_cons in W. lia.
Qed.
Definition measure (u : unicode) (p : piece) : bool * nat := (fst p, sumw (chw u) (snd p)).
Lemma sizes_one u max c ps : cut_into u c ps -> Forall (fun p => sumw (chw u) (snd p) <= max) ps ->
  sizes (tokenize_loop u c max (src c) 0 None) = map (measure u) ps.
Proof.
  intros (E & A & P) W. destruct (tokenize_one u c max) as (cs & HF & Es & HM).
  destruct (@refine (is_blank u (c_code c)) ps (map src cs)) as (css & Ec & HR); auto.
  - rewrite <- flat_map_concat_map, Es. symmetry. exact E.
  - apply Forall_forall. intros s Hs. apply in_map_iff in Hs as (c' & <- & Hc). destruct (Forall2_r_in HF _ Hc) as (t & _ & T). split; [apply T|]. exists (blank t). destruct T as (_ & _ & _ & _ & _ & T & _). exact T.
  - assert (Es' : map src cs = map snd ps).
    { rewrite Ec in *. assert (NE : Forall (fun c => c <> []) (concat css)). { rewrite <- Ec. apply Forall_forall. intros s Hs. apply in_map_iff in Hs as (c' & <- & Hc). destruct (Forall2_r_in HF _ Hc) as (t & _ & T). apply T. }
      clear - HR HM NE P W. revert HM NE P W. induction HR as [|p g ps css E HR IH]; cbn; intros HM NE P W; [reflexivity|].
      inversion P as [|? ? (N & B) P']; subst. inversion W as [|? ? W1 W']; subst. rewrite Forall_app in NE. destruct NE as [NE1 NE2].
      rewrite (@maximal_single _ _ _ _ _ _ _ HM E N NE1 B W1). cbn. f_equal. apply IH; auto. eapply maximal_tail; exact HM. }
    clear - HF Es' P. revert ps Es' P. unfold sizes. induction HF as [|t c' ts cs T HF IH]; intros [|p ps] Es P; try discriminate; [reflexivity|]. cbn [map] in *. injection Es as E1 E2.
    inversion P as [|? ? (N & B) P']; subst. f_equal; [|apply IH; auto]. destruct T as (_ & _ & _ & Ne & W & T & _). unfold measure. rewrite W, E1. f_equal.
    rewrite E1 in *. destruct (snd p) as [|ch s]; [congruence|]. inversion T; subst. inversion B; subst. unfold is_blank in *. congruence.
Qed.
Lemma sizes_all u max cs ps : pieces_of u cs ps -> Forall (fun p => sumw (chw u) (snd p) <= max) ps -> sizes (tokenize u cs max) = map (measure u) ps.
Proof.
  intros (pss & H & ->). induction H as [|c p cs pss H1 H IH]; intros F; [reflexivity|]. cbn [concat tokenize flat_map] in *. rewrite Forall_app in F. destruct F as [F1 F2].
  unfold sizes in *. rewrite !map_app. f_equal; [apply (sizes_one H1 F1)|apply IH; exact F2].
Qed.
Lemma line_width_cons u p l : line_width u (p :: l) = sumw (chw u) (snd p) + line_width u l.
Proof. unfold line_width. cbn [map concat]. apply sumw_app. Qed.
Lemma layout_more p ps l ls : layout ps (l :: ls) -> layout (p :: ps) ((p :: l) :: ls).
Proof. intros H. inversion H; subst; [apply (@lay_last (p :: l) b)|apply (@lay_line (p :: l) b)]; assumption. Qed.
Lemma layout_skip p ps ls : fst p = true -> layout ps ([] :: ls) -> layout (p :: ps) ([] :: ls).
Proof. intros Hp H. inversion H; subst; cbn [app]; [apply (@lay_last [] (p :: b))|apply (@lay_line [] (p :: b))]; auto. Qed.

Lemma greedy_layout u d max w : d + max <= w -> forall ps n c, c <= w -> Forall (ordinary u max) ps ->
  exists l ls, layout ps (l :: ls) /\ incl l ps /\ c + line_width u l <= w /\ Forall (fun l => d + line_width u l <= w) ls
    /\ n + length ls = fst (fold_left (step d w) (map (measure u) ps) (n, c)).
Proof.
  intros Hm. induction ps as [|p ps IH]; intros n c Hc F; cbn [map fold_left].
  - exists [], []. repeat split; [apply (@lay_last [] []); constructor|apply incl_refl|unfold line_width, sumw; cbn; lia|constructor|cbn; lia].
  - inversion F as [|? ? (O1 & O2) F']; subst. change (measure u p) with (fst p, sumw (chw u) (snd p)). unfold step at 2. cbn [fst snd]. destruct (Nat.ltb_spec w (c + sumw (chw u) (snd p))) as [L|L].
    + destruct (fst p) eqn:B.
      * destruct (IH n c Hc F') as (l & ls & H1 & HI & H2 & H3 & H4). assert (l = []) as ->.
        { destruct l as [|q l]; [reflexivity|exfalso]. rewrite line_width_cons in H2. assert (Hq : 1 <= sumw (chw u) (snd q)); [|lia].
          rewrite Forall_forall in F'. destruct (F' q (HI q (or_introl eq_refl))) as (_ & Q). destruct (fst q); lia. }
        exists [], ls. refine (conj (layout_skip _ B H1) (conj (incl_nil_l _) (conj H2 (conj H3 H4)))).
      * destruct (IH (S n) (d + sumw (chw u) (snd p))) as (l & ls & H1 & HI & H2 & H3 & H4); [lia|exact F'|]. exists [], ((p :: l) :: ls).
        refine (conj _ (conj (incl_nil_l _) (conj _ (conj _ _)))).
        -- apply (@lay_line [] [] (p :: ps)); [constructor|]. apply layout_more. exact H1.
        -- unfold line_width, sumw. cbn. lia.
        -- constructor; [rewrite line_width_cons; lia|exact H3].
        -- rewrite <- H4. cbn [length]. lia.
    + destruct (IH n (c + sumw (chw u) (snd p))) as (l & ls & H1 & HI & H2 & H3 & H4); [lia|exact F'|]. exists (p :: l), ls.
      refine (conj (layout_more _ H1) (conj _ (conj _ (conj H3 H4)))); [|rewrite line_width_cons; lia]. intros x [->|Hx]; [left; reflexivity|right; apply HI; exact Hx].
Qed.

(** When the words fit and the blanks are single, there's a way to put them on as many lines: hard_wrap_composite takes the least possible number of lines *)
Theorem C88_reached : forall u k fc w n ps, additive u -> length_ok u k fc -> tall u k fc w n -> pieces_of u (fc_compounds fc) ps ->
  lead k (fc_kind fc) <= w -> Forall (ordinary u (w - lead k (fc_kind fc))) ps ->
  exists lines, layout ps lines /\ fits u (lead k (fc_kind fc)) (lead k (next_kind (fc_kind fc))) w lines /\ length lines = n.
Proof.
  intros u k fc w n ps Hu Hok Ht Hp Hl Ho. pose proof (lead_next k (fc_kind fc)) as Ln. destruct Ht as [(Hv & ->)|(Hv & ls & E & ->)].
  - exists [ps]. split; [rewrite <- (app_nil_r ps) at 1; apply lay_last; constructor|]. split; [|reflexivity]. split; [|constructor].
    apply pieces_width in Hp. unfold length_ok, shown in Hok. lia.
  - destruct (wrap_inv _ _ _ _ E) as (_ & _ & [(a & b & Ec & ->)|(_ & _ & Et)]); cbn zeta in *.
    + apply clean_cut_inv in Ec as (Wa & Wb & Ecs). rewrite Hu in Wa, Wb. destruct Hp as (pss & HF & ->).
      assert (W1 : forall c p, cut_into u c p -> line_width u p = sumw (chw u) (src c)) by (intros c p (X & _); unfold line_width; rewrite X; reflexivity).
      destruct Ecs as [Ecs|(m & Ecs & Hm)]; rewrite Ecs in HF.
      * inversion HF as [|? pa ? ? Ha HF1]; subst. inversion HF1 as [|? pb ? ? Hb HF2]; subst. inversion HF2; subst. exists [pa; pb]. cbn [concat]. rewrite app_nil_r. split; [|split; [|reflexivity]].
        -- apply (@lay_line pa [] pb); [constructor|]. rewrite <- (app_nil_r pb) at 1. apply lay_last. constructor.
        -- split; [rewrite (W1 _ _ Ha); lia|]. constructor; [rewrite (W1 _ _ Hb); lia|constructor].
      * inversion HF as [|? pa ? ? Ha HF1]; subst. inversion HF1 as [|? pm ? ? Hpm HF2]; subst. inversion HF2 as [|? pb ? ? Hb HF3]; subst. inversion HF3; subst. exists [pa; pb]. cbn [concat] in *. rewrite app_nil_r in *. split; [|split; [|reflexivity]].
        -- apply (@lay_line pa pm pb); [|rewrite <- (app_nil_r pb) at 1; apply lay_last; constructor].
           rewrite !Forall_app in Ho. destruct Ho as (_ & Ho & _). destruct Hpm as (Em & _). rewrite <- Em in Hm. clear - Ho Hm. induction Ho as [|p pm (_ & O) _ IH]; [constructor|]. cbn [map concat] in Hm. rewrite Forall_app in Hm. destruct Hm as [M1 M2].
           constructor; [|apply IH; exact M2]. destruct (fst p); [reflexivity|]. exfalso. tauto.
        -- split; [rewrite (W1 _ _ Ha); lia|]. constructor; [rewrite (W1 _ _ Hb); lia|constructor].
    + destruct (tokens_basic u (w - lead k (fc_kind fc)) (fc_compounds fc)) as (cs & HB & _).
      pose proof (@wrap_steps u k (lead k (next_kind (fc_kind fc))) w Hu _ _ (mkFC (fc_kind fc) [] (lead k (fc_kind fc)) (fc_spacing fc)) _ 0 HB eq_refl Et) as X. cbn [visible_length fc_kind] in X.
      rewrite (sizes_all Hp) in X by (eapply Forall_impl; [|exact Ho]; intros p (O & _); exact O).
      destruct (@greedy_layout u (lead k (next_kind (fc_kind fc))) (w - lead k (fc_kind fc)) w ltac:(lia) ps 0 (lead k (fc_kind fc)) Hl Ho) as (l & ls' & H1 & _ & H2 & H3 & H4).
      exists (l :: ls'). split; [exact H1|]. split; [split; assumption|]. cbn [length]. lia.
Qed.
Print Assumptions C88_reached.

Lemma fits_wider u a b w w' lines : w <= w' -> fits u a b w lines -> fits u a b w' lines.
Proof. intros H. destruct lines as [|l ls]; [auto|]. intros [F1 F2]. split; [lia|]. eapply Forall_impl; [|exact F2]. cbn. intros; lia. Qed.

(** A wider area doesn't make taller a text whose words fit, whatever the widths of the chars and the indentation *)
Theorem C84_words_partial : forall u k fc w w' n n' ps, additive u -> length_ok u k fc -> pieces_of u (fc_compounds fc) ps -> ~ blank_end ps ->
  lead k (fc_kind fc) <= w -> Forall (ordinary u (w - lead k (fc_kind fc))) ps -> w <= w' ->
  tall u k fc w n -> tall u k fc w' n' -> n' <= n.
Proof.
  intros u k fc w w' n n' ps Hu Hok Hp Hb Hl Ho Hw Hn Hn'. destruct (C88_reached Hu Hok Hn Hp Hl Ho) as (lines & H1 & H2 & <-).
  eapply C88_optimal_partial; [exact Hu|exact Hok|exact Hn'|exact Hp|exact Hb|exact H1|]. eapply fits_wider; eassumption.
Qed.
Print Assumptions C84_words_partial.

(** An item with a bullet, wide chars, whose following lines aren't indented: 4, 3, 2 and 1 lines, and none of them can be saved *)
Definition item_words : list piece := [(false, letters 5); (true, [32%N]); (false, [27010; 27010]%N); (true, [32%N]); (false, letters 3); (false, letters 2)].
Definition item_text : FmtComposite :=
  let cs := [mkCompound (letters 5 ++ [32%N] ++ [27010; 27010; 32]%N ++ letters 3) false false false false; mkCompound (letters 2) true false false false] in
  mkFC (KListItem 0) cs (visible_composite_length demo skin_first_line (KListItem 0) cs) None.
Lemma item_pieces : pieces_of demo (fc_compounds item_text) item_words.
Proof.
  exists [[(false, letters 5); (true, [32%N]); (false, [27010; 27010]%N); (true, [32%N]); (false, letters 3)]; [(false, letters 2)]]. split; [|reflexivity].
  constructor; [|constructor; [|constructor]]; (split; [reflexivity|]; split; [cbn; repeat split; discriminate|]; repeat constructor; cbn; discriminate).
Qed.
Lemma item_ordinary w : 7 <= w -> Forall (ordinary demo (w - lead skin_first_line (fc_kind item_text))) item_words.
Proof.
  intros H. change (lead skin_first_line (fc_kind item_text)) with 2. assert (Hm : 5 <= w - 2) by lia. revert Hm. generalize (w - 2). intros m Hm. unfold item_words.
  repeat (apply Forall_cons; [split; [eapply Nat.le_trans; [|exact Hm]; vm_compute; lia|cbn [fst]; first [reflexivity | split; [vm_compute; lia|intros F; inversion F; discriminate]]]|]). constructor.
Qed.
Example C88_example : length_ok demo skin_first_line item_text /\ ~ blank_end item_words
  /\ Forall2 (fun w n => tall demo skin_first_line item_text w n) [7; 9; 10; 11; 12; 17; 18] [3; 3; 2; 2; 2; 2; 1]
  /\ (forall lines, layout item_words lines -> fits demo 2 0 9 lines -> 3 <= length lines)
  /\ exists lines, layout item_words lines /\ fits demo 2 0 9 lines /\ length lines = 3.
Proof.
  assert (HB : ~ blank_end item_words).
  { intros (a & s & E). apply (f_equal (fun l => last l (false, []))) in E. rewrite last_last in E. discriminate. }
  assert (T : tall demo skin_first_line item_text 9 3) by (right; split; [vm_compute; lia|eexists; split; vm_compute; reflexivity]).
  assert (Ok : length_ok demo skin_first_line item_text) by reflexivity.
  split; [exact Ok|]. split; [exact HB|]. split; [|split].
  - do 7 (apply Forall2_cons; [vm_compute; first [left; split; [lia|reflexivity] | right; split; [lia|eexists; split; reflexivity]]|]). constructor.
  - intros lines HL HF. exact (C88_optimal_partial demo_additive Ok T item_pieces HB HL HF).
  - apply (C88_reached (ps := item_words) demo_additive Ok T item_pieces); [vm_compute; lia|apply item_ordinary; lia].
Qed.

(** A clean cut keeps a last blank on a line of its own, when it could have been dropped *)
Theorem C88_trailing_refuted : exists fc w n ps lines, length_ok demo skin_default fc /\ tall demo skin_default fc w n /\ pieces_of demo (fc_compounds fc) ps
  /\ layout ps lines /\ fits demo (lead skin_default (fc_kind fc)) (lead skin_default (next_kind (fc_kind fc))) w lines /\ length lines < n.
Proof.
  exists (of_strings KParagraph [letters 5; [32%N]]), 5, 2, [(false, letters 5); (true, [32%N])], [[(false, letters 5)]].
  split; [reflexivity|]. split; [right; split; [vm_compute; lia|eexists; split; vm_compute; reflexivity]|]. split; [|split; [|split]].
  - exists [[(false, letters 5)]; [(true, [32%N])]]. split; [|reflexivity].
    constructor; [|constructor; [|constructor]]; (split; [reflexivity|]; split; [cbn; repeat split; discriminate|]; repeat constructor; cbn; discriminate).
  - apply (@lay_last [(false, letters 5)] [(true, [32%N])]). repeat constructor.
  - split; [vm_compute; lia|constructor].
  - cbn. lia.
Qed.
Print Assumptions C88_trailing_refuted.
(** Several blanks: those which don't fit are dropped inside of a line, and no layout does as well *)
Example C88_not_reached : exists ps, tall demo skin_default (of_strings KParagraph [letters 4 ++ [32; 32; 32]%N ++ letters 1]) 6 1
  /\ pieces_of demo (fc_compounds (of_strings KParagraph [letters 4 ++ [32; 32; 32]%N ++ letters 1])) ps
  /\ forall lines, layout ps lines -> fits demo 0 0 6 lines -> 2 <= length lines.
Proof.
  exists [(false, letters 4); (true, [32; 32; 32]%N); (false, letters 1)]. split; [right; split; [vm_compute; lia|eexists; split; vm_compute; reflexivity]|]. split.
  - exists [[(false, letters 4); (true, [32; 32; 32]%N); (false, letters 1)]]. split; [|reflexivity].
    constructor; [|constructor]. split; [reflexivity|]; split; [cbn; repeat split; discriminate|]; repeat constructor; cbn; discriminate.
  - intros lines HL HF. destruct lines as [|l [|l' ls]]; [destruct HF| |cbn; lia]. exfalso. destruct HF as [HF _].
    inversion HL as [l0 b0 Hb E1 E2|? ? ? ? ? HL' E1 E2]; subst; [|inversion HL'].
    destruct b0 as [|p b0 _] using rev_ind; [rewrite app_nil_r in E1; subst l; vm_compute in HF; lia|].
    rewrite Forall_app in Hb. destruct Hb as [_ Hb]. inversion Hb as [|? ? X _]; subst. apply (f_equal (fun l => last l (false, []))) in E1. rewrite app_assoc, last_last in E1. subst p. discriminate.
Qed.
