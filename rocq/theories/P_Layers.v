(** * In each cell, the last widget drawn is the one which is seen (C123) *)
From Verif Require Import Base L_Base Demo M_Style M_Fit M_Wrap M_TblFit M_Text M_View S_View L_View L_Clean M_Render S_Render M_Rect S_Rect M_List S_List M_Input S_Input S_Pen S_Area S_Paint S_Read S_Look S_Whole S_Pages S_Reading S_Resized S_Point S_App S_Widgets S_Layers.
From Verif Require Import P_Render P_View P_Area P_Paint P_Look P_Pages P_Reading P_Resized P_App P_Widgets.
Set Implicit Arguments.
Open Scope nat_scope.

Section Layers.
Context {T : Type}.
Implicit Types (ws : list (widget T)).
(** The requests for widgets which exist can be followed, one at a time *)
Lemma next_proper u ws j q l w w1 out : nth_error ws j = Some w -> turn u w q = Ret (w1, out) -> (forall i w, nth_error ws i = Some w -> proper u w (its i ((j, q) :: l))) ->
  draws u (cells_of w1) out /\ (forall i w, nth_error (replace ws j w1) i = Some w -> proper u w (its i l)).
Proof.
  intros Ew Et H. pose proof (H j w Ew) as Hj. rewrite its_same in Hj. cbn [proper] in Hj. destruct Hj as (w2 & out2 & Et2 & D & P1). assert (w2 = w1 /\ out2 = out) as (-> & ->) by (split; congruence). split; [exact D|].
  intros i w2 Ei. rewrite replace_at in Ei. destruct (Nat.eqb_spec j i) as [<-|N].
  - rewrite (proj2 (Nat.ltb_lt _ _)) in Ei by (apply nth_error_Some; congruence). injection Ei as <-. exact P1.
  - cbn [andb] in Ei. specialize (H i w2 Ei). rewrite its_other in H by exact N. exact H.
Qed.
Lemma painted u : forall l ws tm ws' tm', t_pen tm = pen0 -> (forall i w, nth_error ws i = Some w -> proper u w (its i l)) -> together u ws tm l = Ret (ws', tm') ->
  forall x y, (clear_of (layers u ws l) x y -> t_cell tm' x y = t_cell tm x y)
  /\ (forall w, topmost (layers u ws l) x y w -> exists out, drawing_of u w = Ret out /\ draws u (cells_of w) out /\ forall t, t_pen t = pen0 -> t_cell tm' x y = t_cell (term_run u t out) x y).
Proof.
  induction l as [|(j, q) l IH]; intros ws tm ws' tm' TP H E x y.
  { cbn [together] in E. injection E as _ <-. split; [reflexivity|]. intros w ([|? ?] & above & El & _); discriminate El. }
  cbn [together layers] in *. destruct (nth_error ws j) as [w|] eqn:Ew; [|discriminate E]. apply bind_Ret_inv in E as ((w1 & out) & Et & E). rewrite Et.
  destruct (@next_proper u ws j q l w w1 out Ew Et H) as ((pic & D) & H1). destruct (D tm TP) as (TP1 & C1). destruct (IH (replace ws j w1) (term_run u tm out) ws' tm' TP1 H1 E x y) as (A & B). split.
  - intros K. inversion K as [|? ? K1 K2]; subst. rewrite (A K2). apply (proj2 (C1 x y)), K1.
  - intros w2 ([|w3 below] & above & El & I & Cl); cbn [app] in El; injection El as -> El.
    + exists out. split; [exact (@turn_drawn T _ _ _ _ _ Et)|]. split; [exists pic; exact D|]. intros t Tt. rewrite A by (rewrite El; exact Cl). rewrite (proj1 (C1 x y) I). symmetry. apply (proj1 (proj2 (D t Tt) x y) I).
    + apply B. exists below, above. auto.
Qed.
(** Requests for widgets which may be drawn over one another, in any order: in each cell, what is seen is what the last widget drawn there has drawn, as if it was alone on any terminal;
    a cell where none was drawn isn't changed *)
Theorem C123_top : forall u ws tm l, t_pen tm = pen0 -> Forall (fun q => fst q < length ws) l -> (forall i w, nth_error ws i = Some w -> proper u w (its i l)) ->
  exists ws' tm', together u ws tm l = Ret (ws', tm') /\ t_pen tm' = pen0 /\ length (layers u ws l) = length l
  /\ forall x y, (clear_of (layers u ws l) x y /\ t_cell tm' x y = t_cell tm x y)
     \/ (exists w out, topmost (layers u ws l) x y w /\ drawing_of u w = Ret out /\ draws u (cells_of w) out /\ forall t, t_pen t = pen0 -> t_cell tm' x y = t_cell (term_run u t out) x y).
Proof.
  intros u ws tm l TP F H. destruct (@C117_alone T u ws tm l TP F H) as (ws' & tm' & E & TP' & _). exists ws', tm'. split; [exact E|]. split; [exact TP'|]. split.
  { clear - E. revert ws tm E. induction l as [|(j, q) l IH]; intros ws tm E; [reflexivity|]. cbn [together layers] in *. destruct (nth_error ws j) as [w|]; [|discriminate E].
    apply bind_Ret_inv in E as ((w1 & out) & Et & E). rewrite Et. cbn [length]. f_equal. exact (IH _ _ E). }
  intros x y. destruct (@painted u l ws tm ws' tm' TP H E x y) as (A & B).
  assert (Dec : forall ls : list (widget T), clear_of ls x y \/ exists w, topmost ls x y w).
  { clear. induction ls as [|w ls IH]; [left; constructor|]. destruct IH as [IH|(w2 & below & above & -> & I & Cl)].
    - destruct (cells_decided w x y) as [I|I]; [right; exists w, [], ls; auto|left; constructor; assumption].
    - right. exists w2, (w :: below), above. auto. }
  destruct (Dec (layers u ws l)) as [K|(w & K)]; [left; split; [exact K|exact (A K)]|]. right. destruct (B w K) as (out & E1 & E2 & E3). exists w, out. auto.
Qed.
Lemma together_app u : forall l1 l2 ws tm, together u ws tm (l1 ++ l2) = ('(ws1, tm1) <- together u ws tm l1 ;; together u ws1 tm1 l2).
Proof.
  induction l1 as [|(j, q) l1 IH]; intros l2 ws tm; [reflexivity|]. cbn [app together]. destruct (nth_error ws j) as [w|]; [|reflexivity]. destruct (turn u w q) as [(w1 & out)| |]; cbn [bind]; try reflexivity. apply IH.
Qed.
Lemma layers_app u : forall l1 l2 ws tm ws1 tm1, together u ws tm l1 = Ret (ws1, tm1) -> layers u ws (l1 ++ l2) = layers u ws l1 ++ layers u ws1 l2 /\ length (layers u ws l1) = length l1.
Proof.
  induction l1 as [|(j, q) l1 IH]; intros l2 ws tm ws1 tm1 E; [cbn in E; injection E as <- _; split; reflexivity|]. cbn [app together layers] in *. destruct (nth_error ws j) as [w|]; [|discriminate E].
  apply bind_Ret_inv in E as ((w1 & out) & Et & E). rewrite Et. destruct (IH l2 _ _ _ _ E) as (A & B). cbn [app length]. rewrite A, B. split; reflexivity.
Qed.
Lemma kept u i : forall l ws tm ws' tm', together u ws tm l = Ret (ws', tm') -> Forall (fun q => fst q <> i) l -> nth_error ws' i = nth_error ws i.
Proof.
  induction l as [|(j, q) l IH]; intros ws tm ws' tm' E F; [cbn in E; injection E as <- _; reflexivity|]. inversion F as [|? ? F1 F2]; subst. cbn [fst together] in *. destruct (nth_error ws j) as [w|]; [|discriminate E].
  apply bind_Ret_inv in E as ((w1 & out) & Et & E). rewrite (IH _ _ _ _ E F2), replace_at. rewrite (proj2 (Nat.eqb_neq _ _) F1). reflexivity.
Qed.
(** What is seen of the widget drawn last isn't hidden, whatever it was drawn over; and a widget is seen as it is as long as those drawn after it aren't drawn in its cells: those which were drawn before it don't matter,
    even when they covered it, or when it covers them *)
Theorem C123_screen : forall u ws tm l0 i q r, let l := l0 ++ (i, q) :: r in t_pen tm = pen0 -> Forall (fun p => fst p < length ws) l -> (forall j w, nth_error ws j = Some w -> well_used u w (its j l)) ->
  Forall (fun p => fst p <> i) r ->
  exists ws' tm' w w', together u ws tm l = Ret (ws', tm') /\ t_pen tm' = pen0 /\ nth_error ws i = Some w /\ nth_error ws' i = Some w' /\ nth_error (layers u ws l) (length l0) = Some w'
  /\ (Forall (fun w2 => apart (cells_of w') (cells_of w2)) (skipn (S (length l0)) (layers u ws l)) -> shows u w (its i l) tm' w').
Proof.
  intros u ws tm l0 i q r l TP F H Fr. assert (Hp : forall j w, nth_error ws j = Some w -> proper u w (its j l)) by (intros j w Ej; apply used_proper, H, Ej).
  destruct (@C117_alone T u ws tm l TP F Hp) as (ws' & tm' & E & TP' & _ & A & _). pose proof (@painted u l ws tm ws' tm' TP Hp E) as Pt. exists ws', tm'.
  destruct (nth_error ws i) as [w|] eqn:Ew.
  2: { exfalso. apply nth_error_None in Ew. unfold l in F. apply Forall_app in F as (_ & F). inversion F as [|? ? F1 _]; subst. cbn [fst] in F1. lia. }
  exists w. destruct (A i w Ew) as (w' & tmi & Ea & Ew' & _). exists w'. split; [exact E|]. split; [exact TP'|]. split; [reflexivity|]. split; [exact Ew'|].
  pose proof E as E0. unfold l in E0. rewrite together_app in E0. apply bind_Ret_inv in E0 as ((ws1 & tm1) & E1 & E2). destruct (@layers_app u l0 ((i, q) :: r) ws tm ws1 tm1 E1) as (La & Ln). fold l in La.
  cbn [together layers] in E2, La. destruct (nth_error ws1 i) as [w1|] eqn:Ew1; [|discriminate E2]. apply bind_Ret_inv in E2 as ((w2 & out) & Et & E2). rewrite Et in La.
  assert (w2 = w') as ->.
  { pose proof (@kept u i r _ _ _ _ E2 Fr) as K. rewrite replace_at, Nat.eqb_refl, (proj2 (Nat.ltb_lt _ _)), Ew' in K by (apply nth_error_Some; congruence). cbn [andb] in K. congruence. }
  rewrite La. split; [rewrite nth_error_app2, Ln, Nat.sub_diag by lia; reflexivity|].
  assert (skipn (S (length l0)) (layers u ws l0 ++ w' :: layers u (replace ws1 i w') r) = layers u (replace ws1 i w') r) as -> by (rewrite skipn_app, skipn_all2, Ln, Nat.sub_succ_l, Nat.sub_diag by lia; reflexivity).
  intros Ap. assert (Ni : its i l <> []).
  { unfold l, its. rewrite filter_app, map_app. cbn [List.filter fst]. rewrite Nat.eqb_refl. cbn [map]. intros K. apply app_eq_nil in K as (_ & K). discriminate K. }
  destruct (@last_turn T u (its i l) w tm w' tmi (Hp i w Ew) Ea Ni TP) as (tm0 & o & Ed & (pic & D) & _). assert (o = out) as -> by (pose proof (@turn_drawn T _ _ _ _ _ Et); congruence).
  eapply shown_when; [apply H, Ew|exact TP|exact Ea|exact Ni|exact Ed|exact TP'|]. intros x y. destruct (D tm' TP') as (_ & C1). destruct (cells_decided w' x y) as [I|I]; [|apply (proj2 (C1 x y) I)].
  destruct (Pt x y) as (_ & B). destruct (B w') as (o & Eo & _ & V); [|assert (o = out) as -> by congruence; rewrite (V tm' TP'); reflexivity].
  rewrite La. exists (layers u ws l0), (layers u (replace ws1 i w') r). split; [reflexivity|]. split; [exact I|]. eapply Forall_impl; [|exact Ap]. cbv beta. intros w3 K J. exact (K x y (conj I J)).
Qed.
(** The widget which was asked last is seen as it is, whatever it was drawn over *)
Theorem C123_last : forall u ws tm l i q, t_pen tm = pen0 -> Forall (fun p => fst p < length ws) (l ++ [(i, q)]) -> (forall j w, nth_error ws j = Some w -> well_used u w (its j (l ++ [(i, q)]))) ->
  exists ws' tm' w w', together u ws tm (l ++ [(i, q)]) = Ret (ws', tm') /\ t_pen tm' = pen0 /\ nth_error ws i = Some w /\ nth_error ws' i = Some w' /\ shows u w (its i (l ++ [(i, q)])) tm' w'.
Proof.
  intros u ws tm l i q TP F H. destruct (@C123_screen u ws tm l i q [] TP F H (Forall_nil _)) as (ws' & tm' & w & w' & E & TP' & Ew & Ew' & Nl & S). exists ws', tm', w, w'. repeat (split; [assumption|]). apply S.
  destruct (@C123_top u ws tm (l ++ [(i, q)]) TP F) as (_ & _ & _ & _ & Ln & _); [intros j w2 Ej; apply used_proper, H, Ej|]. rewrite skipn_all2 by (rewrite Ln, app_length; cbn; lia). constructor.
Qed.
End Layers.
Print Assumptions C123_top.
Print Assumptions C123_screen.
Print Assumptions C123_last.

(** ** Example *)
(** The view of [C117_example], a filled rectangle over a part of it, and another one below *)
Unset Implicit Arguments.
Definition popup : Rect := mkRect (mkArea 8 3 6 5) cs_default true BORDER_STYLE_MIDDLE_ROUND_LINE.
Definition footer : Rect := mkRect (mkArea 3 8 9 2) cs_default true BORDER_STYLE_MIDDLE_ROUND_LINE.
Definition stacked : list (widget N) := [WView skin_default 1000 look_text (source_view demo skin_default 1000 look_text (mkArea 3 2 18 4)); WRect popup; WRect footer].
Definition opened : list (nat * request N) := [(0, AskView []); (2, AskRect); (1, AskRect)].
Definition closed : list (nat * request N) := opened ++ (0, AskView [page_down]) :: [(2, AskRect)].
Definition stacked_rows (l : list (nat * request N)) : list str :=
  match together demo stacked full_term l with Ret (_, tm) => map (fun j => read_row tm 2 j 20) (seq 1 9) | _ => [] end.
Lemma stacked_used : forall i w, nth_error stacked i = Some w -> well_used demo w (its i opened) /\ well_used demo w (its i closed).
Proof.
  destruct C115_example as (G & _ & U & Wh & El & NE & _). intros [|[|[|i]]] w E; cbn [stacked nth_error] in E; try (destruct i; discriminate); injection E as <-.
  - split.
    + exists (mkArea 3 2 18 4), [[]]. split; [reflexivity|]. split; [reflexivity|]. repeat (split; [assumption|]). exact I.
    + exists (mkArea 3 2 18 4), [[]; [page_down]]. split; [reflexivity|]. split; [reflexivity|]. repeat (split; [assumption|]). cbn [concat app ops_good mv_op_ok page_down]. split; [exact I|exact I].
  - split; cbn; (split; [repeat constructor|]); (split; [split; [reflexivity|repeat constructor]|]); (split; [split; reflexivity|]); unfold width_of, height_of; cbn; lia.
  - split; cbn; (split; [repeat constructor|]); (split; [split; [reflexivity|repeat constructor]|]); (split; [split; reflexivity|]); unfold width_of, height_of; cbn; lia.
Qed.
(** The popup is drawn over the view, then the view is drawn again, with the next page, then the footer, which is drawn in other cells *)
Example C123_example : t_pen full_term = pen0 /\ Forall (fun p => fst p < length stacked) closed /\ (forall j w, nth_error stacked j = Some w -> well_used demo w (its j closed))
  /\ Forall (fun p => fst p <> 0) [(2, @AskRect N)]
  /\ match nth_error (layers demo stacked closed) 3 with Some (WView _ _ _ v) => mv_area v = mkArea 3 2 18 4 | _ => False end /\ skipn 4 (layers demo stacked closed) = [WRect footer]
  /\ apart (inside (mkArea 3 2 18 4)) (cells_of (WRect (T := N) footer)) /\ ~ apart (inside (mkArea 3 2 18 4)) (cells_of (WRect (T := N) popup)).
Proof.
  split; [reflexivity|]. split; [repeat constructor|]. split; [intros j w E; apply stacked_used, E|]. split; [repeat constructor; discriminate|]. split; [|split; [|split]].
  - vm_compute. reflexivity.
  - vm_compute. reflexivity.
  - intros x y (H1 & H2). change (cells_of (WRect (T := N) footer)) with (inside (mkArea 3 8 9 2)) in H2. unfold inside, S_View.cell_in in *. cbn [a_left a_top a_width a_height] in *. lia.
  - intros H. apply (H 9 4). change (cells_of (WRect (T := N) popup)) with (inside (mkArea 8 3 6 5)). unfold inside, S_View.cell_in. cbn. lia.
Qed.
(** The popup hides a part of the view, as long as the view isn't drawn again *)
Example C123_opened : stacked_rows opened =
  [[120; 120; 120; 120; 120; 120; 120; 120; 120; 120; 120; 120; 120; 120; 120; 120; 120; 120; 120; 120];
   [120; 97; 97; 97; 97; 97; 97; 32; 98; 98; 98; 98; 98; 32; 32; 32; 32; 32; 9616; 120];
   [120; 99; 99; 99; 99; 99; 9581; 9472; 9472; 9472; 9472; 9582; 32; 32; 32; 32; 32; 32; 9616; 120];
   [120; 32; 32; 32; 32; 32; 9474; 32; 32; 32; 32; 9474; 32; 32; 32; 32; 32; 32; 9616; 120];
   [120; 98; 32; 32; 98; 32; 9474; 32; 32; 32; 32; 9474; 32; 32; 32; 32; 32; 32; 9616; 120];
   [120; 120; 120; 120; 120; 120; 9474; 32; 32; 32; 32; 9474; 120; 120; 120; 120; 120; 120; 120; 120];
   [120; 120; 120; 120; 120; 120; 9584; 9472; 9472; 9472; 9472; 9583; 120; 120; 120; 120; 120; 120; 120; 120];
   [120; 9581; 9472; 9472; 9472; 9472; 9472; 9472; 9472; 9582; 120; 120; 120; 120; 120; 120; 120; 120; 120; 120];
   [120; 9584; 9472; 9472; 9472; 9472; 9472; 9472; 9472; 9583; 120; 120; 120; 120; 120; 120; 120; 120; 120; 120]]%N.
Proof. vm_compute. reflexivity. Qed.
(** What remains of the popup is only outside of the view *)
Example C123_closed : stacked_rows closed =
  [[120; 120; 120; 120; 120; 120; 120; 120; 120; 120; 120; 120; 120; 120; 120; 120; 120; 120; 120; 120];
   [120; 32; 32; 32; 32; 32; 32; 32; 97; 97; 32; 32; 32; 32; 32; 32; 32; 32; 9616; 120];
   [120; 98; 32; 32; 98; 32; 32; 32; 32; 32; 32; 32; 32; 32; 32; 32; 32; 32; 9616; 120];
   [120; 32; 99; 32; 32; 32; 32; 32; 32; 32; 32; 32; 32; 32; 32; 32; 32; 32; 9616; 120];
   [120; 9474; 32; 97; 32; 9474; 98; 98; 32; 9474; 32; 32; 32; 32; 32; 32; 32; 32; 9616; 120];
   [120; 120; 120; 120; 120; 120; 9474; 32; 32; 32; 32; 9474; 120; 120; 120; 120; 120; 120; 120; 120];
   [120; 120; 120; 120; 120; 120; 9584; 9472; 9472; 9472; 9472; 9583; 120; 120; 120; 120; 120; 120; 120; 120];
   [120; 9581; 9472; 9472; 9472; 9472; 9472; 9472; 9472; 9582; 120; 120; 120; 120; 120; 120; 120; 120; 120; 120];
   [120; 9584; 9472; 9472; 9472; 9472; 9472; 9472; 9472; 9583; 120; 120; 120; 120; 120; 120; 120; 120; 120; 120]]%N.
Proof. vm_compute. reflexivity. Qed.
