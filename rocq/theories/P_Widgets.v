(** * Several widgets on the same terminal are each seen as if they were alone (C117) *)
From Verif Require Import Base L_Base Demo M_Style M_Fit M_Wrap M_TblFit M_Text M_View S_View L_View L_Clean M_Render S_Render M_Rect S_Rect M_List S_List L_List2 S_ListRead S_ListLook S_ListDrawn M_Input S_Input S_Input2 S_Pen S_Area S_Paint S_Read S_Look S_Whole S_Pages S_Reading S_Resized S_Point S_App S_Widgets.
From Verif Require P_Rect P_List P_ListRead P_ListLook P_ListDrawn.
From Verif Require Import P_Render P_View P_Area P_Input P_Pen P_Paint P_Look P_Pages P_Reading P_Resized P_App.
Set Implicit Arguments.
Open Scope nat_scope.

(** ** Non-interference *)
Section Widgets.
Context {T : Type}.
Implicit Types (ws : list (widget T)).
Lemma cells_decided (w : widget T) x y : cells_of w x y \/ ~ cells_of w x y.
Proof.
  destruct w as [k um text v|f|r|v]; cbn [cells_of]; [apply (C94_cells (mv_area v))|apply (C94_cells (if_area f))|destruct (r_fill r); apply (C94_cells (r_area r))|].
  unfold cells_of_list. cbv zeta. destruct (match lv_scrollbar v with Ret sb => has_bar sb | _ => false end); lia.
Qed.
Lemma its_same i (q : request T) l : its i ((i, q) :: l) = q :: its i l.
Proof. unfold its. cbn [List.filter fst]. rewrite Nat.eqb_refl. reflexivity. Qed.
Lemma its_other i j (q : request T) l : j <> i -> its i ((j, q) :: l) = its i l.
Proof. intros N. unfold its. cbn [List.filter fst]. rewrite (proj2 (Nat.eqb_neq _ _) N). reflexivity. Qed.
Lemma replace_len {A} (x : A) : forall l i, length (replace l i x) = length l.
Proof. induction l as [|y l IH]; intros [|i]; cbn [replace length]; auto. Qed.
Lemma replace_at {A} (x : A) : forall l i j, nth_error (replace l i x) j = if (i =? j) && (i <? length l) then Some x else nth_error l j.
Proof.
  induction l as [|y l IH]; intros [|i] [|j]; cbn [replace nth_error length]; try reflexivity.
  - rewrite andb_comm. reflexivity.
  - rewrite IH. reflexivity.
Qed.
Lemma tail_left u ws j q w1 out l w i x y : nth_error ws j = Some w -> turn u w q = Ret (w1, out) -> left_by_others u ws ((j, q) :: l) i x y -> left_by_others u (replace ws j w1) l i x y.
Proof.
  intros Ew Et H k w2 P Nk Ek IP. rewrite replace_at in Ek. destruct (Nat.eqb_spec j k) as [<-|N].
  - assert (j < length ws) by (apply nth_error_Some; congruence). rewrite (proj2 (Nat.ltb_lt _ _)) in Ek by assumption. injection Ek as <-.
    apply (H j w P Nk Ew). rewrite its_same. cbn [places]. rewrite Et. right. exact IP.
  - cbn [andb] in Ek. apply (H k w2 P Nk Ek). rewrite its_other by exact N. exact IP.
Qed.
Lemma unaffected u : forall l ws tm, t_pen tm = pen0 -> Forall (fun q => fst q < length ws) l -> (forall i w, nth_error ws i = Some w -> proper u w (its i l)) ->
  exists ws' tm', together u ws tm l = Ret (ws', tm') /\ t_pen tm' = pen0 /\ length ws' = length ws
  /\ (forall i w tm0, nth_error ws i = Some w -> t_pen tm0 = pen0 -> exists w' tmi, alone u w tm0 (its i l) = Ret (w', tmi) /\ nth_error ws' i = Some w' /\ t_pen tmi = pen0
      /\ forall x y, t_cell tm x y = t_cell tm0 x y -> left_by_others u ws l i x y -> t_cell tm' x y = t_cell tmi x y)
  /\ (forall x y, (forall i w P, nth_error ws i = Some w -> In P (places u w (its i l)) -> ~ P x y) -> t_cell tm' x y = t_cell tm x y).
Proof.
  induction l as [|(j, q) l IH]; intros ws tm TP F H.
  { exists ws, tm. split; [reflexivity|]. split; [exact TP|]. split; [reflexivity|]. split; [|reflexivity]. intros i w tm0 Ei T0. exists w, tm0. cbn. auto. }
  inversion F as [|? ? Fj Fl]; subst. cbn [fst] in Fj. destruct (nth_error ws j) as [w|] eqn:Ew; [|apply nth_error_None in Ew; lia].
  pose proof (H j w Ew) as Hj. rewrite its_same in Hj. cbn [proper] in Hj. destruct Hj as (w1 & out & Et & (pic & D) & P1). destruct (D tm TP) as (TP1 & C1).
  destruct (IH (replace ws j w1) (term_run u tm out) TP1) as (ws' & tm' & E & TP' & L & A & O).
  { rewrite replace_len. exact Fl. }
  { intros i w2 Ei. rewrite replace_at in Ei. destruct (Nat.eqb_spec j i) as [<-|N].
    - rewrite (proj2 (Nat.ltb_lt _ _) Fj) in Ei. injection Ei as <-. exact P1.
    - cbn [andb] in Ei. specialize (H i w2 Ei). rewrite its_other in H by exact N. exact H. }
  exists ws', tm'. cbn [together]. rewrite Ew, Et. cbn [bind]. split; [exact E|]. split; [exact TP'|]. split; [rewrite L; apply replace_len|]. split.
  - intros i w2 tm0 Ei T0. destruct (Nat.eq_dec j i) as [<-|N].
    + assert (w2 = w) as -> by congruence. destruct (D tm0 T0) as (T1 & C0). destruct (A j w1 (term_run u tm0 out)) as (w' & tmi & Ea & Ej & Ti & V); [rewrite replace_at, Nat.eqb_refl, (proj2 (Nat.ltb_lt _ _) Fj); reflexivity|exact T1|].
      exists w', tmi. rewrite its_same. cbn [alone]. rewrite Et. cbn [bind]. split; [exact Ea|]. split; [exact Ej|]. split; [exact Ti|]. intros x y Exy Lxy. apply V; [|eapply tail_left; eassumption].
      destruct (cells_decided w1 x y) as [I|I]; [rewrite (proj1 (C1 x y) I), (proj1 (C0 x y) I); reflexivity|rewrite (proj2 (C1 x y) I), (proj2 (C0 x y) I); exact Exy].
    + destruct (A i w2 tm0) as (w' & tmi & Ea & Ej & Ti & V); [rewrite replace_at, (proj2 (Nat.eqb_neq _ _) N); exact Ei|exact T0|].
      exists w', tmi. rewrite its_other by exact N. split; [exact Ea|]. split; [exact Ej|]. split; [exact Ti|]. intros x y Exy Lxy. apply V; [|eapply tail_left; eassumption].
      rewrite (proj2 (C1 x y)); [exact Exy|]. apply (Lxy j w (cells_of w1) N Ew). rewrite its_same. cbn [places]. rewrite Et. left. reflexivity.
  - intros x y N. rewrite O.
    + apply (proj2 (C1 x y)). apply (N j w (cells_of w1) Ew). rewrite its_same. cbn [places]. rewrite Et. left. reflexivity.
    + intros i w2 P Ei IP. rewrite replace_at in Ei. destruct (Nat.eqb_spec j i) as [<-|Nj].
      * rewrite (proj2 (Nat.ltb_lt _ _) Fj) in Ei. injection Ei as <-. apply (N j w P Ew). rewrite its_same. cbn [places]. rewrite Et. right. exact IP.
      * cbn [andb] in Ei. apply (N i w2 P Ei). rewrite its_other by exact Nj. exact IP.
Qed.
(** Requests for widgets, in any order: each widget becomes what it would become alone, and, in the cells where the others aren't drawn, what is seen is what would be seen
    if it was alone. Nothing is changed elsewhere. *)
Theorem C117_alone : forall u ws tm l, t_pen tm = pen0 -> Forall (fun q => fst q < length ws) l -> (forall i w, nth_error ws i = Some w -> proper u w (its i l)) ->
  exists ws' tm', together u ws tm l = Ret (ws', tm') /\ t_pen tm' = pen0 /\ length ws' = length ws
  /\ (forall i w, nth_error ws i = Some w -> exists w' tmi, alone u w tm (its i l) = Ret (w', tmi) /\ nth_error ws' i = Some w'
      /\ forall x y, left_by_others u ws l i x y -> t_cell tm' x y = t_cell tmi x y)
  /\ (forall x y, (forall i w P, nth_error ws i = Some w -> In P (places u w (its i l)) -> ~ P x y) -> t_cell tm' x y = t_cell tm x y).
Proof.
  intros u ws tm l TP F H. destruct (@unaffected u l ws tm TP F H) as (ws' & tm' & E & TP' & L & A & O). exists ws', tm'. split; [exact E|]. split; [exact TP'|]. split; [exact L|]. split; [|exact O].
  intros i w Ei. destruct (A i w tm Ei TP) as (w' & tmi & Ea & Ew & _ & V). exists w', tmi. split; [exact Ea|]. split; [exact Ew|]. intros x y. apply V. reflexivity.
Qed.

(** ** The widgets of the crate *)
Lemma view_proper u k um text : usual u no_special k -> is_white u 32%N = true -> ellipsis_seen u -> Forall no_ellipsis text -> forall groups a s,
  good_area u k um text a -> (s <= lines_in u k um text a)%N -> ops_good (good_area u k um text) a (concat groups) -> proper u (WView (T := T) k um text (mv_with (source_view u k um text a) s)) (map AskView groups).
Proof.
  intros U Wh El NE. induction groups as [|g groups IH]; intros a s G Hs Ho; [exact I|]. cbn [concat map proper] in *.
  destruct (@run_after u k um text U g a s (concat groups) G Hs Ho) as (s1 & _ & R1 & G1 & S1 & O1). destruct (@drawing u k um text _ U Wh El NE G1) as (n & ps & bws & _ & D).
  destruct (D s1 S1) as (out & Eo & Dr & _). eexists _, _. cbn [turn]. rewrite R1, bind_ret, Eo, bind_ret. split; [reflexivity|]. split; [exact Dr|]. apply IH; assumption.
Qed.
Lemma field_proper u n : usual_widths u -> forall groups f, fine u n f (concat groups) -> proper u (WField f : widget T) (map AskField groups).
Proof.
  intros HU. induction groups as [|g groups IH]; intros f F; [exact I|]. cbn [concat map proper] in *. destruct (@fine_run u n g f (concat groups) F) as (f1 & R1 & F1 & A1).
  destruct (@fine_drawn u n f1 HU (fine_nil F1)) as (out & p & ED & DR & _). eexists _, _. cbn [turn]. rewrite R1, bind_ret, ED, bind_ret. split; [reflexivity|]. split; [exact DR|]. apply IH, F1.
Qed.
Lemma rect_proper u r : thin_border u (r_border r) -> on_screen (r_area r) -> 2 <= width_of r -> 2 <= height_of r -> forall l, Forall (eq AskRect) l -> proper u (WRect r : widget T) l.
Proof.
  intros Tb S W H. destruct (@C94_rect u r Tb S W H) as (out & E & D). induction 1 as [|q l <- _ IH]; [exact I|]. eexists _, _. cbn [turn]. rewrite E, bind_ret. split; [reflexivity|]. split; [exact D|exact IH].
Qed.
Lemma list_proper u : forall groups (v : ListView T), list_used u v groups -> proper u (WList v) (map AskList groups).
Proof.
  induction groups as [|g groups IH]; intros v H; [exact I|]. cbn [list_used map proper] in *. destruct H as (v' & sb & R & Ht & Hd & Hs & Hsb & H).
  destruct (P_ListDrawn.C118_list Ht Hd Hs Hsb) as (out & E & D). eexists _, _. cbn [turn]. rewrite R, bind_ret, E, bind_ret. split; [reflexivity|]. split; [|apply IH, H]. cbn [cells_of]. rewrite Hsb. exact D.
Qed.
Lemma start_with u k um text a : source_view u k um text a = mv_with (source_view u k um text a) 0%N.
Proof. reflexivity. Qed.
Lemma used_proper u (w : widget T) l : well_used u w l -> proper u w l.
Proof.
  destruct w as [k um text v|f|r|v]; cbn [well_used].
  - intros (a & groups & -> & -> & U & Wh & El & NE & G & Ho). rewrite start_with. apply view_proper; try assumption. lia.
  - intros (n & groups & -> & HU & F). eapply field_proper; eassumption.
  - intros (F & Tb & S & W & H). apply rect_proper; assumption.
  - intros (groups & -> & H). apply list_proper, H.
Qed.
Lemma view_alone u k um text : forall groups v tm, alone u (WView (T := T) k um text v) tm (map AskView groups) = ('(v', tm') <- reading u k v tm groups ;; Ret (WView (T := T) k um text v', tm')).
Proof.
  induction groups as [|g groups IH]; intros v tm; [reflexivity|]. cbn [map alone reading turn]. destruct (mv_run v g) as [v1| |]; cbn [bind]; try reflexivity.
  destruct (mv_write_on (render_line no_special k) v1) as [out| |]; cbn [bind]; try reflexivity. apply IH.
Qed.
Lemma field_alone u : forall groups f tm, alone u (WField f : widget T) tm (map AskField groups) = ('(f', tm') <- working u f tm groups ;; Ret (WField f', tm')).
Proof.
  induction groups as [|g groups IH]; intros f tm; [reflexivity|]. cbn [map alone working turn]. destruct (if_run u f g) as [f1| |]; cbn [bind]; try reflexivity.
  destruct (display_on u f1) as [(out & p)| |]; cbn [bind]; try reflexivity. apply IH.
Qed.
Lemma turn_drawn u (w : widget T) q w' out : turn u w q = Ret (w', out) -> drawing_of u w' = Ret out.
Proof.
  destruct w as [k um text v|f|r|v], q as [ops|ops| |ops]; cbn [turn]; try discriminate; intros E.
  - apply bind_Ret_inv in E as (v' & _ & E). apply bind_Ret_inv in E as (o & Eo & E). injection E as <- <-. exact Eo.
  - apply bind_Ret_inv in E as (f' & _ & E). apply bind_Ret_inv in E as ((o & p) & Eo & E). injection E as <- <-. cbn [drawing_of]. rewrite Eo. reflexivity.
  - apply bind_Ret_inv in E as (o & Eo & E). injection E as <- <-. exact Eo.
  - apply bind_Ret_inv in E as (v' & _ & E). apply bind_Ret_inv in E as (o & Eo & E). injection E as <- <-. exact Eo.
Qed.
Lemma last_turn u : forall l (w : widget T) tm w' tmi, proper u w l -> alone u w tm l = Ret (w', tmi) -> l <> [] -> t_pen tm = pen0 ->
  exists tm0 out, drawing_of u w' = Ret out /\ draws u (cells_of w') out /\ t_pen tm0 = pen0 /\ tmi = term_run u tm0 out /\ In (cells_of w') (places u w l).
Proof.
  induction l as [|q l IH]; intros w tm w' tmi P E N TP; [congruence|]. cbn [proper alone places] in *. destruct P as (w1 & out & Et & D & P1). rewrite Et in E |- *. cbn [bind] in E.
  destruct l as [|q2 l].
  - injection E as <- <-. exists tm, out. split; [exact (@turn_drawn _ _ _ _ _ Et)|]. split; [exact D|]. split; [exact TP|]. split; [reflexivity|left; reflexivity].
  - destruct D as (pic & D). destruct (IH w1 (term_run u tm out) w' tmi P1 E ltac:(discriminate) (proj1 (D tm TP))) as (tm0 & o & A & B & C & F & G). exists tm0, o. repeat (split; [assumption|]). right. exact G.
Qed.
(** When the widgets are kept in separate cells, drawing one of those which have been drawn as it is would change nothing: each one is seen as it is *)
Theorem C117_settled : forall u ws tm l, t_pen tm = pen0 -> Forall (fun q => fst q < length ws) l -> (forall i w, nth_error ws i = Some w -> proper u w (its i l)) -> separate u ws l ->
  exists ws' tm', together u ws tm l = Ret (ws', tm') /\ t_pen tm' = pen0
  /\ forall i w, nth_error ws i = Some w -> exists w' out tmi, nth_error ws' i = Some w' /\ alone u w tm (its i l) = Ret (w', tmi)
     /\ (its i l <> [] -> drawing_of u w' = Ret out /\ draws u (cells_of w') out /\ same_view (term_run u tm' out) tm').
Proof.
  intros u ws tm l TP F H Sep. destruct (@C117_alone u ws tm l TP F H) as (ws' & tm' & E & TP' & _ & A & _). exists ws', tm'. split; [exact E|]. split; [exact TP'|].
  intros i w Ei. destruct (A i w Ei) as (w' & tmi & Ea & Ew & V). destruct (its i l) as [|q0 l0] eqn:El; [exists w', [], tmi; split; [exact Ew|]; split; [exact Ea|congruence]|].
  rewrite <- El in *. assert (Ni : its i l <> []) by (rewrite El; discriminate).
  destruct (@last_turn u (its i l) w tm w' tmi (H i w Ei) Ea Ni TP) as (tm0 & out & Ed & (pic & D) & T0 & Et & IP). exists w', out, tmi. split; [exact Ew|]. split; [exact Ea|]. intros _.
  split; [exact Ed|]. split; [exists pic; exact D|]. destruct (D tm' TP') as (T1 & C1). split; [congruence|]. intros x y. destruct (cells_decided w' x y) as [I|I]; [|apply (proj2 (C1 x y) I)].
  rewrite (proj1 (C1 x y) I), V.
  - rewrite Et. symmetry. apply (proj2 (D tm0 T0) x y). exact I.
  - intros j w2 Q Nj Ej IQ K. exact (Sep i j w w2 (cells_of w') Q (not_eq_sym Nj) Ei Ej IP IQ x y (conj I K)).
Qed.

(** ** What is seen *)
Section Same.
Context (tm tm2 : term) (Same : forall x y, t_cell tm x y = t_cell tm2 x y).
Lemma row_same x y w : look_row tm x y w = look_row tm2 x y w.
Proof. unfold look_row. apply flat_map_ext. intros i. rewrite Same. reflexivity. Qed.
Lemma block_same x y w h : look_block tm x y w h = look_block tm2 x y w h.
Proof. unfold look_block. apply flat_map_ext. intros i. apply row_same. Qed.
Lemma line_same u k p bw l x y w : looks_line u k tm p bw l x y w -> looks_line u k tm2 p bw l x y w.
Proof.
  unfold looks_line. destruct l as [c|cells|al| |]; intros H; cbv zeta in *.
  - destruct H as (parts & H1 & H2 & H3 & H4). exists parts. split; [exact H1|]. split; [exact H2|]. split; [|exact H4]. intros i part Ei. rewrite <- row_same. exact (H3 i part Ei).
  - destruct H as (H1 & H2). split; [intros j Lj; rewrite <- block_same; exact (H1 j Lj)|intros j d Lj Ld; rewrite <- row_same; exact (H2 j d Lj Ld)].
  - rewrite <- row_same. exact H.
  - rewrite <- row_same. exact H.
  - rewrite <- row_same. exact H.
Qed.
Lemma seen_same u k text a n ps bws s : seen_from u k tm text a n ps bws s -> seen_from u k tm2 text a n ps bws s.
Proof.
  intros (H1 & H2). split.
  - intros i l p bw Hi Hp Hb first L1 L2. apply line_same. exact (H1 i l p bw Hi Hp Hb L1 L2).
  - intros B. destruct (H2 B) as (from & to & H). exists from, to. intros j Lj. rewrite <- row_same. exact (H j Lj).
Qed.
Lemma read_same x y w : read_row tm x y w = read_row tm2 x y w.
Proof. unfold read_row. apply flat_map_ext. intros i. rewrite Same. reflexivity. Qed.
Lemma wears_same x y w p : wears tm x y w p -> wears tm2 x y w p.
Proof. intros H i Li. rewrite <- Same. apply H, Li. Qed.
Lemma list_same (v : ListView T) : list_seen tm v -> list_seen tm2 v.
Proof.
  intros (H1 & H2 & H3). split; [|split].
  - intros i j h title Hr Hi Hh. destruct (H1 i j h title Hr Hi Hh) as (A & B). cbv zeta. rewrite <- read_same. split; [exact A|apply wears_same, B].
  - intros j i r Ej Er p c Ep. destruct (H2 j i r Ej Er p c Ep) as (A & B). split; [|apply wears_same, B]. unfold read_cell_of in *. rewrite <- read_same. exact A.
  - intros j Lj. destruct (H3 j Lj) as (A & B). rewrite <- read_same. split; [exact A|apply wears_same, B].
Qed.
End Same.
Lemma last_mark_some u x y : forall l v, last_mark u x y l = Some v -> exists s p, In (s, p) l /\ covers u s x y /\ v = Part (s_char s) (x - s_x s) p.
Proof.
  induction l as [|(s & p) l IH]; intros v; cbn [last_mark]; [discriminate|]. destruct (last_mark u x y l) as [v'|].
  - intros E. injection E as <-. destruct (IH v' eq_refl) as (s' & p' & I & C). exists s', p'. split; [right; exact I|exact C].
  - destruct (mark_at u x y s) eqn:M; [|discriminate]. intros E. injection E as <-. exists s, p. split; [left; reflexivity|]. split; [|reflexivity].
    unfold mark_at in M. apply andb_prop in M as (M & M3). apply andb_prop in M as (M1 & M2). split; lia.
Qed.
Lemma rect_seen u r out tm x y c : thin_border u (r_border r) -> on_screen (r_area r) -> 2 <= width_of r -> 2 <= height_of r -> rect_draw r = Ret out -> t_pen tm = pen0 -> cell_of r x y c ->
  t_cell (term_run u tm out) x y = Part c 0 (look_of [r_colors r]).
Proof.
  intros Tb S W H E TP K. destruct (@P_Rect.C50_cells u r (t_x tm) (t_y tm) Tb S W H) as (out' & E' & Cs & ND). assert (out' = out) as -> by congruence.
  assert (One : forall x y c, cell_of r x y c -> chw u c = 1).
  { destruct Tb as (T1 & T2). unfold border_chars in T2. repeat match goal with X : Forall _ (_ :: _) |- _ => inversion X; clear X; subst end. intros x1 y1 c1 K1. destruct K1; assumption. }
  rewrite run_cells by (eapply clean_rect; exact E). rewrite TP, marks_screen; [|eapply clean_rect; exact E|eapply C80_rect; exact E].
  set (spots := screen u (t_x tm) (t_y tm) out) in *. assert (I0 : In (mkSpot x y (Some (r_colors r)) c) spots) by (apply Cs; auto).
  destruct (last_mark u x y (map (fun s => (s, worn (s_style s))) spots)) as [v|] eqn:L.
  - apply last_mark_some in L as (s & p & I & V & ->). apply in_map_iff in I as (s' & Es & I). injection Es as -> <-. destruct s as [sx sy st sc]. pose proof (proj1 (Cs _ _ _ _) I) as (Kc & ->).
    unfold covers in V. cbn [s_x s_y s_char] in V. rewrite (One _ _ _ Kc) in V. destruct V as (<- & V). assert (sx = x) as -> by lia.
    assert (mkSpot x sy (Some (r_colors r)) sc = mkSpot x sy (Some (r_colors r)) c) as Eq.
    { clear - I I0 ND. induction spots as [|s l IH]; [destruct I|]. cbn [map] in ND. inversion ND as [|? ? N1 N2]; subst. destruct I as [->|I], I0 as [I0|I0].
      - exact I0.
      - exfalso. apply N1. apply in_map_iff. exists (mkSpot x sy (Some (r_colors r)) c). split; [reflexivity|exact I0].
      - subst s. exfalso. apply N1. apply in_map_iff. exists (mkSpot x sy (Some (r_colors r)) sc). split; [reflexivity|exact I].
      - apply IH; assumption. }
    injection Eq as ->. cbn [s_char s_x s_style]. rewrite Nat.sub_diag, look_worn. reflexivity.
  - exfalso. apply last_mark_none in L. apply L. exists (mkSpot x y (Some (r_colors r)) c). split; [rewrite map_map; cbn [fst]; rewrite map_id; exact I0|].
    unfold covers. cbn [s_x s_y s_char]. rewrite (One _ _ _ K). lia.
Qed.
Lemma used_places u (w : widget T) l : well_used u w l -> places u w l = drawn_in w l.
Proof.
  assert (FV : forall groups, flat_map (fun q => match q with AskView ops => [ops] | _ => [] end) (map (@AskView T) groups) = groups) by (induction groups as [|g groups IH]; [reflexivity|]; cbn [map flat_map app]; rewrite IH; reflexivity).
  assert (FL : forall groups, flat_map (fun q => match q with AskList ops => [ops] | _ => [] end) (map (@AskList T) groups) = groups) by (induction groups as [|g groups IH]; [reflexivity|]; cbn [map flat_map app]; rewrite IH; reflexivity).
  assert (FF : forall groups, flat_map (fun q => match q with AskField ops => [ops] | _ => [] end) (map (@AskField T) groups) = groups) by (induction groups as [|g groups IH]; [reflexivity|]; cbn [map flat_map app]; rewrite IH; reflexivity).
  destruct w as [k um text v|f|r|v]; cbn [well_used drawn_in].
  - intros (a & groups & -> & -> & U & Wh & El & NE & G & Ho). rewrite FV. change (mv_area (source_view u k um text a)) with a. rewrite start_with. assert (Hs : (0 <= lines_in u k um text a)%N) by lia. revert a G Ho Hs. generalize 0%N. clear FV FF FL.
    induction groups as [|g groups IH]; intros s a G Ho Hs; [reflexivity|]. cbn [concat map places drawn_areas] in *.
    destruct (@run_after u k um text U g a s (concat groups) G Hs Ho) as (s1 & _ & R1 & G1 & S1 & O1). destruct (@drawing u k um text _ U Wh El NE G1) as (n & ps & bws & _ & D).
    destruct (D s1 S1) as (out & Eo & _). cbn [turn]. rewrite R1, bind_ret, Eo, bind_ret. f_equal. apply IH; assumption.
  - intros (n & groups & -> & HU & F). rewrite FF. clear FV FF FL. revert f F. induction groups as [|g groups IH]; intros f F; [reflexivity|]. cbn [concat map places field_areas] in *.
    destruct (@fine_run u n g f (concat groups) F) as (f1 & R1 & F1 & A1). destruct (@fine_drawn u n f1 HU (fine_nil F1)) as (out & p & ED & _ & _). cbn [turn]. rewrite R1, bind_ret, ED, bind_ret. cbn [cells_of]. rewrite IH by exact F1. rewrite A1. reflexivity.
  - intros (Fr & Tb & S & W & H). destruct (@C94_rect u r Tb S W H) as (out & E & _). induction Fr as [|q l <- _ IH]; [reflexivity|]. cbn [places turn map]. rewrite E, bind_ret, IH. reflexivity.
  - intros (groups & -> & H). rewrite FL. clear FV FF FL. revert v H. induction groups as [|g groups IH]; intros v H; [reflexivity|]. cbn [list_used map places list_places] in *. destruct H as (v' & sb & R & Ht & Hd & Hs & Hsb & H).
    destruct (P_ListDrawn.C118_list Ht Hd Hs Hsb) as (out & E & _). cbn [turn]. rewrite R, bind_ret, E, bind_ret. f_equal. apply IH, H.
Qed.
Lemma list_at u : forall groups (v : ListView T) tm w' tmi, list_used u v groups -> alone u (WList v) tm (map AskList groups) = Ret (w', tmi) -> groups <> [] ->
  exists v' sb, lv_run v (concat groups) = Ret v' /\ w' = WList v' /\ well_titled v' /\ drawable u v' /\ lv_scroll v' <= length (rows v') /\ lv_scrollbar v' = Ret sb.
Proof.
  induction groups as [|g groups IH]; intros v tm w' tmi H E N; [congruence|]. cbn [list_used map alone concat turn] in *. destruct H as (v1 & sb & R & Ht & Hd & Hs & Hsb & H). rewrite R, bind_ret in E.
  destruct (P_ListDrawn.C118_list Ht Hd Hs Hsb) as (out & Eo & _). rewrite Eo, bind_ret in E. cbn [bind] in E.
  assert (RA : forall a b (x y : ListView T), lv_run x a = Ret y -> lv_run x (a ++ b) = lv_run y b).
  { induction a as [|o a IHa]; intros b x y Ea; cbn [app lv_run] in *; [injection Ea as ->; reflexivity|]. apply bind_Ret_inv in Ea as (z & Ez & Ea). rewrite Ez, bind_ret. apply IHa, Ea. }
  rewrite (RA _ _ _ _ R). destruct groups as [|g2 groups].
  - cbn [map alone] in E. injection E as <- <-. exists v1, sb. repeat (split; [first [reflexivity|assumption]|]). assumption.
  - eapply IH; [exact H|exact E|discriminate].
Qed.
Lemma list_shown u tm (v : ListView T) sb out : well_titled v -> drawable u v -> lv_scroll v <= length (rows v) -> lv_scrollbar v = Ret sb -> lv_write_on v = Ret out -> t_pen tm = pen0 -> list_seen (term_run u tm out) v.
Proof.
  intros Ht Hd Hs Hsb E TP. pose proof Hd as (Hh & Hc & Hn & H1 & H2 & H3 & Hw). destruct (P_ListRead.C100_list Ht Hh Hc Hn H1 H2 H3 Hs Hsb Hw) as (out1 & E1 & R). assert (out1 = out) as -> by congruence.
  destruct (P_ListLook.C107_list Ht Hd Hs Hsb) as (out2 & E2 & L). assert (out2 = out) as -> by congruence. destruct (R tm) as (R1 & _ & R3 & R4 & _). destruct (L tm TP) as (L1 & _ & L3 & L4 & _). clear R L.
  split; [|split].
  - intros i j h title Hr Hi Hh0. split; [apply (R1 i j title Hr Hi)|apply (L1 i j h Hr Hh0)].
  - intros j i r Ej Er p c Ep. split; [apply (R3 j i r Ej Er p c Ep)|apply (L3 j i r Ej Er p c Ep)].
  - intros j Lj. split; [apply R4, Lj|apply L4, Lj].
Qed.
(** A widget is seen as it is when drawing it changes nothing *)
Lemma shown_when u (w : widget T) l tm tm' w' tmi out : well_used u w l -> t_pen tm = pen0 -> alone u w tm l = Ret (w', tmi) -> l <> [] -> drawing_of u w' = Ret out -> t_pen tm' = pen0 ->
  (forall x y, t_cell (term_run u tm' out) x y = t_cell tm' x y) -> shows u w l tm' w'.
Proof.
  intros Hu TP Ea Ni Ed TP' Same. destruct w as [k um text v|f|r|v]; cbn [well_used shows] in *.
  - destruct Hu as (a & groups & -> & El & U & Wh & Ell & NE & G & Ho). intros groups2 El2. assert (groups2 = groups) as ->.
    { rewrite El in El2. clear - El2. revert groups2 El2. induction groups as [|g groups IH]; intros [|g2 groups2] E; try discriminate; [reflexivity|]. cbn [map] in E. injection E as <- E. f_equal. apply IH, E. }
    rewrite El, view_alone in Ea. destruct (@sessions u k um text U Wh Ell NE groups a 0%N tm G ltac:(lia) Ho TP) as (a' & s' & tm2 & Fo & G' & S' & R & _). rewrite start_with, R in Ea. cbn [bind] in Ea. injection Ea as <- <-.
    destruct (@drawing u k um text a' U Wh Ell NE G') as (n & ps & bws & La & Dr). destruct (Dr s' S') as (out2 & Eo & _ & Se). cbn [drawing_of] in Ed. assert (out2 = out) as -> by congruence.
    exists a', s', n, ps, bws. split; [exact Fo|]. split; [reflexivity|]. split; [exact La|]. eapply seen_same; [exact Same|]. apply Se, TP'.
  - destruct Hu as (n & groups & El & HU & Fi). intros groups2 El2. assert (groups2 = groups) as ->.
    { rewrite El in El2. clear - El2. revert groups2 El2. induction groups as [|g groups IH]; intros [|g2 groups2] E; try discriminate; [reflexivity|]. cbn [map] in E. injection E as <- E. f_equal. apply IH, E. }
    rewrite El, field_alone in Ea. destruct (@C116_working u HU n groups f tm Fi TP) as (f' & tm2 & Ew2 & Er & _). rewrite Ew2 in Ea. cbn [bind] in Ea. injection Ea as <- <-.
    exists f'. split; [exact Er|]. split; [reflexivity|]. cbn [drawing_of] in Ed.
    assert (Fe : fine u n f (concat groups ++ [])) by (rewrite app_nil_r; exact Fi). destruct (@fine_run u n (concat groups) f [] Fe) as (f2 & R2 & F2 & _). assert (f2 = f') as -> by congruence.
    destruct (@fine_drawn u n f' HU F2) as (out2 & p & ED & _ & PIC). rewrite ED in Ed. cbn [bind] in Ed. injection Ed as ->. intros c j Hc Hj. rewrite <- Same. apply PIC; assumption.
  - destruct Hu as (Fr & Tb & S & W & Hh). assert (w' = WRect r) as ->.
    { clear - Ea Fr. revert tm Ea. induction Fr as [|q l0 <- _ IH]; intros tm Ea; cbn [alone turn] in Ea; [injection Ea as <- _; reflexivity|]. apply bind_Ret_inv in Ea as ((w1 & o) & E1 & Ea). apply bind_Ret_inv in E1 as (o1 & _ & E1). injection E1 as <- <-. eapply IH, Ea. }
    split; [reflexivity|]. intros x y c K. rewrite <- Same. eapply rect_seen; try eassumption.
  - destruct Hu as (groups & El & Hg). intros groups2 El2. assert (groups2 = groups) as ->.
    { rewrite El in El2. clear - El2. revert groups2 El2. induction groups as [|g groups IH]; intros [|g2 groups2] E; try discriminate; [reflexivity|]. cbn [map] in E. injection E as <- E. f_equal. apply IH, E. }
    rewrite El in Ea, Ni. destruct (@list_at u groups v tm w' tmi Hg Ea ltac:(intros ->; apply Ni; reflexivity)) as (v' & sb & Er & -> & Ht & Hd & Hs & Hsb). exists v'. split; [exact Er|]. split; [reflexivity|].
    eapply list_same; [exact Same|]. eapply list_shown; try eassumption.
Qed.
(** Views of texts, input fields and rectangles used in any order, each one in its own cells, as told in C115, C116 and C50: nothing panics, and those which were drawn are all seen as they are *)
Theorem C117_screen : forall u ws tm l, t_pen tm = pen0 -> Forall (fun q => fst q < length ws) l -> (forall i w, nth_error ws i = Some w -> well_used u w (its i l)) -> own_cells ws l ->
  exists ws' tm', together u ws tm l = Ret (ws', tm') /\ t_pen tm' = pen0 /\ length ws' = length ws
  /\ (forall i w, nth_error ws i = Some w -> exists w', nth_error ws' i = Some w' /\ (its i l = [] -> w' = w) /\ (its i l <> [] -> shows u w (its i l) tm' w'))
  /\ (forall x y, (forall i w P, nth_error ws i = Some w -> In P (drawn_in w (its i l)) -> ~ P x y) -> t_cell tm' x y = t_cell tm x y).
Proof.
  intros u ws tm l TP F H Own. assert (Pl : forall i w, nth_error ws i = Some w -> places u w (its i l) = drawn_in w (its i l)) by (intros i w Ei; apply used_places, H, Ei).
  assert (Sep : separate u ws l) by (intros i j w w' P Q N Ei Ej; rewrite (Pl i w Ei), (Pl j w' Ej); apply Own; assumption). assert (Hp : forall i w, nth_error ws i = Some w -> proper u w (its i l)) by (intros i w Ei; apply used_proper, H, Ei).
  destruct (@C117_settled u ws tm l TP F Hp Sep) as (ws' & tm' & E & TP' & A). destruct (@C117_alone u ws tm l TP F Hp) as (ws2 & tm2 & E2 & _ & L & _ & O).
  assert ((ws2, tm2) = (ws', tm')) as Eq by congruence. injection Eq as -> ->. exists ws', tm'. split; [exact E|]. split; [exact TP'|]. split; [exact L|]. split; [|intros x y N; apply O; intros i w P Ei; rewrite (Pl i w Ei); apply N, Ei].
  intros i w Ei. destruct (A i w Ei) as (w' & out & tmi & Ew & Ea & R). exists w'. split; [exact Ew|]. split; [intros En; rewrite En in Ea; cbn [alone] in Ea; injection Ea as <- _; reflexivity|].
  intros Ni. destruct (R Ni) as (Ed & _ & _ & Same). eapply shown_when; [apply H, Ei|exact TP|exact Ea|exact Ni|exact Ed|exact TP'|exact Same].
Qed.
End Widgets.
Print Assumptions C117_alone.
Print Assumptions C117_settled.
Print Assumptions C117_screen.

(** The text of [C106_example] in a view of 4 rows, inside the border of a rectangle, a field below, and the list of [C100_example] on the right *)
Import P_ListRead. Unset Implicit Arguments.
Definition first_ops : list (lv_op N) := sorted_ops ++ [LvArea (mkArea 24 0 12 7); LvFirst].
Definition first_lv : ListView N := match lv_run sorted_new first_ops with Ret v => v | _ => P_List.demo_lv 0 end.
Definition second_lv : ListView N := match lv_run first_lv [LvNext false] with Ret v => v | _ => P_List.demo_lv 0 end.
Definition framed : list (widget N) :=
  [WRect (mkRect (mkArea 2 1 20 6) cs_default false BORDER_STYLE_MIDDLE_ROUND_LINE);
   WView skin_default 1000 look_text (source_view demo skin_default 1000 look_text (mkArea 3 2 18 4));
   WField (demo_field 8 2); WList sorted_new].
Definition framed_requests : list (nat * request N) :=
  [(3, AskList first_ops); (1, AskView []); (2, AskField [IfSetArea (mkArea 3 9 8 2); IfPut 97%N]); (0, AskRect); (1, AskView [page_down]); (3, AskList [LvNext false]); (2, AskField [IfPut 98%N]); (1, AskView [MvLines (-1)])].
Definition framed_rows (l : list (nat * request N)) : list str :=
  match together demo framed full_term l with Ret (_, tm) => map (fun j => read_row tm 1 j 35) (seq 0 11) | _ => [] end.
Lemma first_run : lv_run sorted_new first_ops = Ret first_lv.
Proof.
  unfold first_lv. assert (H : match lv_run sorted_new first_ops with Ret _ => true | _ => false end = true) by (vm_compute; reflexivity). destruct (lv_run sorted_new first_ops); [reflexivity|discriminate H..].
Qed.
Lemma second_run : lv_run first_lv [LvNext false] = Ret second_lv.
Proof.
  unfold second_lv. assert (H : match lv_run first_lv [LvNext false] with Ret _ => true | _ => false end = true) by (vm_compute; reflexivity). destruct (lv_run first_lv [LvNext false]); [reflexivity|discriminate H..].
Qed.
Lemma demo_drawable (v : ListView N) : cells_ok v -> lv_area v = mkArea 24 0 12 7 -> lv_skin v = skin_default -> (line_len (widths_of (columns v)) <=? 12) = true ->
  forallb (fun c => forallb (fun x => chw demo x =? 1) (lc_title c) && forallb (fun r => forallb (fun x => chw demo x =? 1) (con (extract c (data r)))) (rows v)) (columns v) = true -> drawable demo v.
Proof.
  intros Hc Ha Hk Hl B. unfold drawable, thin_list. rewrite Ha, Hk. split; [vm_compute; discriminate|]. split; [exact Hc|]. split; [|split; [vm_compute; reflexivity|split; [vm_compute; reflexivity|split; [vm_compute; discriminate|apply Nat.leb_le, Hl]]]].
  split; [apply thin_b; vm_compute; reflexivity|]. split; [apply thin_b; vm_compute; reflexivity|].
  rewrite forallb_forall in B. intros c Ic. apply B in Ic. apply andb_prop in Ic as (I1 & I2). split; [apply thin_b, I1|]. rewrite forallb_forall in I2. intros r Ir. apply thin_b, I2, Ir.
Qed.
Lemma demo_used : list_used demo sorted_new [first_ops; [LvNext false]].
Proof.
  assert (R2 : lv_run sorted_new (first_ops ++ [LvNext false]) = Ret second_lv).
  { assert (RA : forall (a b : list (lv_op N)) x y, lv_run x a = Ret y -> lv_run x (a ++ b) = lv_run y b).
    { induction a as [|o a IHa]; intros b x y Ea; cbn [app lv_run] in *; [injection Ea as ->; reflexivity|]. apply bind_Ret_inv in Ea as (z & Ez & Ea). rewrite Ez, bind_ret. apply IHa, Ea. }
    rewrite (RA _ _ _ _ first_run). exact second_run. }
  exists first_lv, None. split; [exact first_run|]. split; [eapply (@well_titled_run N (mkArea 1 0 12 7) Verif.P_List.demo_cols skin_default sorted_new first_lv first_ops); [apply sorted_made|exact first_run]|].
  split; [apply demo_drawable; [intros c d Hc; vm_compute in Hc; destruct Hc as [<-|[<-|[<-|[]]]]; reflexivity|vm_compute; reflexivity..]|]. split; [apply Nat.leb_le; vm_compute; reflexivity|]. split; [vm_compute; reflexivity|].
  exists second_lv, None. split; [exact second_run|]. split; [eapply (@well_titled_run N (mkArea 1 0 12 7) Verif.P_List.demo_cols skin_default sorted_new second_lv); [apply sorted_made|exact R2]|].
  split; [apply demo_drawable; [intros c d Hc; vm_compute in Hc; destruct Hc as [<-|[<-|[<-|[]]]]; reflexivity|vm_compute; reflexivity..]|]. split; [apply Nat.leb_le; vm_compute; reflexivity|]. split; [vm_compute; reflexivity|exact I].
Qed.
Lemma first_facts : lv_area first_lv = mkArea 24 0 12 7 /\ length (seen_rows first_lv) = 3.
Proof. split; vm_compute; reflexivity. Qed.
Lemma second_facts : lv_area second_lv = mkArea 24 0 12 7 /\ length (seen_rows second_lv) = 3.
Proof. split; vm_compute; reflexivity. Qed.
Lemma list_within (v : ListView N) x y : lv_area v = mkArea 24 0 12 7 /\ length (seen_rows v) = 3 -> cells_of (WList v) x y -> 24 <= x /\ y < 7.
Proof. intros (Ha & Hn) H. unfold cells_of, cells_of_list in H. cbv zeta in H. rewrite Ha, Hn in H. cbn [a_left a_top a_width a_height] in H. destruct H as [H|[H|H]]; lia. Qed.
Lemma demo_places_eq : list_places sorted_new [first_ops; [LvNext false]] = [cells_of (WList first_lv); cells_of (WList second_lv)].
Proof. cbn [list_places]. rewrite first_run, second_run. reflexivity. Qed.
Lemma demo_within (v1 v2 : ListView N) (P : nat -> nat -> Prop) x y : lv_area v1 = mkArea 24 0 12 7 /\ length (seen_rows v1) = 3 -> lv_area v2 = mkArea 24 0 12 7 /\ length (seen_rows v2) = 3 ->
  In P [cells_of (WList v1); cells_of (WList v2)] -> P x y -> 24 <= x /\ y < 7.
Proof. intros F1 F2 [<-|[<-|[]]] H; [exact (list_within _ _ _ F1 H)|exact (list_within _ _ _ F2 H)]. Qed.
Lemma demo_places (P : nat -> nat -> Prop) x y : In P (list_places sorted_new [first_ops; [LvNext false]]) -> P x y -> 24 <= x /\ y < 7.
Proof. rewrite demo_places_eq. exact (@demo_within first_lv second_lv P x y first_facts second_facts). Qed.
Lemma list_drawn_in (v : ListView N) groups : drawn_in (WList v) (map AskList groups) = list_places v groups.
Proof. unfold drawn_in. f_equal. induction groups as [|g groups IH]; [reflexivity|]. cbn [map flat_map app]. f_equal. exact IH. Qed.
Lemma its_list : its 3 framed_requests = map AskList [first_ops; [LvNext false]].
Proof. reflexivity. Qed.
Example C117_example : t_pen full_term = pen0 /\ Forall (fun q => fst q < length framed) framed_requests
  /\ (forall i w, nth_error framed i = Some w -> well_used demo w (its i framed_requests)) /\ own_cells framed framed_requests.
Proof.
  split; [reflexivity|]. split; [repeat constructor|]. split.
  - destruct C115_example as (G & _ & U & Wh & El & NE & _). intros [|[|[|[|i]]]] w E; cbn [framed nth_error] in E; try (destruct i; discriminate); injection E as <-.
    + cbn. split; [repeat constructor|]. split; [split; [reflexivity|repeat constructor]|]. split; [split; reflexivity|]. unfold width_of, height_of. cbn. lia.
    + exists (mkArea 3 2 18 4), [[]; [page_down]; [MvLines (-1)]]. split; [reflexivity|]. split; [reflexivity|]. repeat (split; [assumption|]). cbn [concat app ops_good mv_op_ok page_down]. split; [exact I|]. split; [lia|exact I].
    + exists 3, [[IfSetArea (mkArea 3 9 8 2); IfPut 97%N]; [IfPut 98%N]]. split; [reflexivity|]. destruct C116_example as (HU & _ & (F1 & F2 & F3 & _) & _). split; [exact HU|].
      assert (R : roomy 3 (mkArea 3 9 8 2)) by (unfold roomy, on_screen; cbn; lia). split; [exact F1|]. split; [exact F2|]. split; [exact F3|]. split; [cbn; repeat (split; [exact R|]); exact I|]. split; [|split; vm_compute; lia].
      apply Forall_forall. intros o Io ch Hc. cbn [concat app In] in Io. repeat (destruct Io as [<-|Io]; [cbv in Hc; repeat (destruct Hc as [<-|Hc]; [vm_compute; auto; fail|]); destruct Hc|]). destruct Io.
    + exists [first_ops; [LvNext false]]. split; [exact its_list|exact demo_used].
  - intros i j w w' P Q N Ei Ej IP IQ.
    assert (K : forall i w P, nth_error framed i = Some w -> In P (drawn_in w (its i framed_requests)) -> forall x y, P x y ->
      match i with 0 => on_border (mkArea 2 1 20 6) x y | 1 => inside (mkArea 3 2 18 4) x y | 2 => inside (mkArea 3 9 8 2) x y | _ => 24 <= x /\ y < 7 end).
    { clear. intros [|[|[|[|i]]]] w P E I x y H; cbn [framed nth_error] in E; try (destruct i; discriminate); injection E as <-.
      1,2,3: cbn in I; repeat (destruct I as [<-|I]; [exact H|]); destruct I.
      rewrite its_list, list_drawn_in in I. eapply demo_places; eassumption. }
    intros x y (H1 & H2). apply (K i w P Ei IP) in H1. apply (K j w' Q Ej IQ) in H2. assert (i < 4) by (change 4 with (length framed); apply nth_error_Some; congruence). assert (j < 4) by (change 4 with (length framed); apply nth_error_Some; congruence). clear - N H H0 H1 H2.
    unfold on_border, inside, S_View.cell_in in *. destruct i as [|[|[|[|i]]]], j as [|[|[|[|j]]]]; cbn [a_left a_top a_width a_height] in *; lia.
Qed.
Example C117_rows : framed_rows framed_requests =
  [repeat 120 23%nat ++ [32; 65; 66; 32; 32; 9474; 32; 32; 67; 32; 32; 120];
   [120; 9581] ++ repeat 9472 18%nat ++ [9582; 120; 120] ++ repeat 9472 5%nat ++ [9532; 9472; 9516; 9472; 9472; 9472; 120];
   [120; 9474] ++ repeat 99 9%nat ++ repeat 32 8%nat ++ [9616; 9474; 120; 120; 32; 100; 101; 102; 32; 9474; 100; 9474; 100; 45; 100; 120];
   [120; 9474] ++ repeat 32 7%nat ++ [97; 97] ++ repeat 32 8%nat ++ [9616; 9474; 120; 120; 32; 99; 100; 101; 32; 9474; 99; 9474; 99; 45; 99; 120];
   [120; 9474; 98; 32; 32; 98] ++ repeat 32 13%nat ++ [9616; 9474; 120; 120; 32; 97; 98; 99; 32; 9474; 97; 9474; 97; 45; 97; 120];
   [120; 9474; 32; 99] ++ repeat 32 15%nat ++ [9616; 9474; 120; 120] ++ repeat 32 12%nat;
   [120; 9584] ++ repeat 9472 18%nat ++ [9583; 120; 120] ++ repeat 32 12%nat;
   repeat 120 35%nat;
   repeat 120 35%nat;
   [120; 120; 97; 98] ++ repeat 32 6%nat ++ repeat 120 25%nat;
   [120; 120] ++ repeat 32 8%nat ++ repeat 120 25%nat]%N.
Proof. vm_compute. reflexivity. Qed.
