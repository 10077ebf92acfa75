(** * What is drawn in separate areas doesn't depend on the order (C94) *)
From Verif Require Import Base L_Base M_Style M_Fit M_Wrap M_TblFit S_Wrap M_Text S_Text M_Fitter M_View S_View M_Render S_Render M_Area S_Input S_Pen S_Area S_Paint L_Clean Demo.
From Verif Require Import M_Content S_Content.
From Verif Require Import M_Rect S_Rect P_Rect P_Pen P_Area P_Input.
From Verif Require M_Input M_List P_List P_Text P_Render.
From Coq Require Import Permutation.
Set Implicit Arguments.
Open Scope nat_scope.

(** ** The spots of the screen and the cells of the terminal *)

Definition mark_at (u : unicode) (x y : nat) (s : spot) : bool := (y =? s_y s) && (s_x s <=? x) && (x <? s_x s + chw u (s_char s)).
(** the look of the cell, if it's in one of the spots *)
Fixpoint last_mark (u : unicode) (x y : nat) (l : list (spot * pen)) : option seen :=
  match l with
  | [] => None
  | (s, p) :: r => match last_mark u x y r with Some v => Some v | None => if mark_at u x y s then Some (Part (s_char s) (x - s_x s) p) else None end
  end.
Fixpoint marks (u : unicode) (x y : nat) (p : pen) (out : list cmd) : list (spot * pen) :=
  match out with
  | [] => []
  | Print s :: r => map (fun m => (m, p)) (put u x y None s) ++ marks u (x + sumw (chw u) s) y p r
  | Styled cs s :: r => map (fun m => (m, worn_over p cs)) (put u x y (Some cs) s) ++ marks u (x + sumw (chw u) s) y (worn_out p cs) r
  | MoveTo x y :: r => marks u (N.to_nat x) (N.to_nat y) p r
  | SetFg c :: r => marks u x y (mkPen c (p_bg p) (p_attrs p)) r
  | SetBg c :: r => marks u x y (mkPen (p_fg p) c (p_attrs p)) r
  | ResetColor :: r => marks u x y pen0 r
  | _ :: r => marks u x y p r
  end.
Lemma last_mark_app u x y a b : last_mark u x y (a ++ b) = match last_mark u x y b with Some v => Some v | None => last_mark u x y a end.
Proof.
  induction a as [|(s & p) a IH]; cbn [app last_mark]; [destruct (last_mark u x y b); reflexivity|]. rewrite IH. destruct (last_mark u x y b); [reflexivity|]. reflexivity.
Qed.
Lemma type_str_cells u st p : forall s t x y,
  t_cell (type_str u t p s) x y = match last_mark u x y (map (fun m => (m, p)) (put u (t_x t) (t_y t) st s)) with Some v => v | None => t_cell t x y end
  /\ t_x (type_str u t p s) = t_x t + sumw (chw u) s /\ t_y (type_str u t p s) = t_y t /\ t_pen (type_str u t p s) = t_pen t.
Proof.
  induction s as [|c s IH]; intros t x y; [cbn; rewrite Nat.add_0_r; auto|]. cbn [type_str put map last_mark]. rewrite sumw_cons.
  destruct (IH (type_char u t p c) x y) as (A & B & C & D). rewrite A, B, C, D. cbn [type_char cell_now t_cell t_x t_y t_pen].
  split; [|rewrite Nat.add_assoc; auto]. unfold mark_at. cbn [s_x s_y s_char]. destruct (last_mark _ _ _ _); [reflexivity|]. destruct (_ && _); reflexivity.
Qed.
Lemma run_cells u : forall out t x y, clean out ->
  t_cell (term_run u t out) x y = match last_mark u x y (marks u (t_x t) (t_y t) (t_pen t) out) with Some v => v | None => t_cell t x y end.
Proof.
  unfold term_run. induction out as [|c out IH]; intros t x y C; [reflexivity|]. inversion C as [|? ? N C']; subst. cbn [fold_left]. rewrite IH by exact C'. clear IH.
  destruct c as [s|cs s|c|c|mx my| | | |]; try contradiction N; cbn [term_step marks with_pen t_cell t_x t_y t_pen]; try reflexivity.
  - destruct (@type_str_cells u None (t_pen t) s t x y) as (A & B & D & E). rewrite A, B, D, E, last_mark_app. destruct (last_mark _ _ _ (marks _ _ _ _ _)); reflexivity.
  - destruct (@type_str_cells u (Some cs) (worn_over (t_pen t) cs) s t x y) as (A & B & D & E). rewrite A, B, D, last_mark_app. destruct (last_mark _ _ _ (marks _ _ _ _ _)); reflexivity.
Qed.
Lemma run_pen u : forall out t, t_pen (term_run u t out) = pen_after (t_pen t) out.
Proof.
  unfold term_run. induction out as [|c out IH]; intros t; [reflexivity|]. cbn [fold_left]. rewrite IH. destruct c as [s|cs s|c|c|mx my| | | |]; cbn [term_step pen_after with_pen t_pen erase cell_now]; try reflexivity.
  f_equal. apply (@type_str_cells u None (t_pen t) s t 0 0).
Qed.
Lemma put_text u st : forall s x y, map s_char (put u x y st s) = s.
Proof. induction s as [|c s IH]; intros x y; cbn [put map s_char]; [reflexivity|]. rewrite IH. reflexivity. Qed.
Lemma put_style u st : forall s x y, map s_style (put u x y st s) = map (fun _ => st) s.
Proof. induction s as [|c s IH]; intros x y; cbn [put map s_style]; [reflexivity|]. rewrite IH. reflexivity. Qed.
Lemma marks_spots u : forall out x y p, map fst (marks u x y p out) = screen u x y out.
Proof.
  induction out as [|c out IH]; intros x y p; [reflexivity|]. destruct c; cbn [marks screen]; rewrite ?map_app, ?map_map, ?IH; cbn [fst]; rewrite ?map_id; reflexivity.
Qed.
Lemma map_const_app {A B C} (f : A -> C) (g : B -> C) l m : map f l = map g m -> forall l' m', map f l' = map g m' -> map f (l ++ l') = map g (m ++ m').
Proof. intros H l' m' H'. rewrite !map_app, H, H'. reflexivity. Qed.
Lemma marks_pens u : forall out x y p, clean out -> map snd (marks u x y p out) = map snd (inked p out).
Proof.
  induction out as [|c out IH]; intros x y p C; [reflexivity|]. inversion C as [|? ? N C']; subst. destruct c as [s|cs s|c|c|mx my| | | |]; try contradiction N; cbn [marks inked]; auto;
    rewrite !map_app, !map_map, IH by exact C'; f_equal; cbn [snd].
  - rewrite <- (put_text u None s x y) at 2. rewrite map_map. reflexivity.
  - rewrite <- (put_text u (Some cs) s x y) at 2. rewrite map_map. reflexivity.
Qed.
Lemma given_styles u : forall out x y, clean out -> map snd (given out) = map s_style (screen u x y out).
Proof.
  induction out as [|c out IH]; intros x y C; [reflexivity|]. inversion C as [|? ? N C']; subst. destruct c as [s|cs s|c|c|mx my| | | |]; try contradiction N; cbn [screen given]; auto;
    rewrite !map_app, map_map, put_style; cbn [snd]; f_equal; auto.
Qed.
Lemma pair_lists {A B} : forall (l : list (A * B)) f, map snd l = map f (map fst l) -> l = map (fun a => (a, f a)) (map fst l).
Proof. induction l as [|(a & b) l IH]; intros f H; [reflexivity|]. cbn [map fst snd] in *. injection H as -> H. rewrite <- (IH f H). reflexivity. Qed.
Lemma marks_screen u out x y : clean out -> faithful out -> marks u x y pen0 out = map (fun s => (s, worn (s_style s))) (screen u x y out).
Proof.
  intros C (F & _). rewrite <- (marks_spots u out x y pen0). apply pair_lists. rewrite marks_pens by exact C. rewrite F, map_map. cbn [snd].
  rewrite marks_spots, <- (map_map s_style worn), <- (given_styles u x y C), map_map. reflexivity.
Qed.
Lemma last_mark_none u x y : forall l, last_mark u x y l = None <-> ~ exists s, In s (map fst l) /\ covers u s x y.
Proof.
  induction l as [|(s & p) l IH]; cbn [last_mark map fst In]; [split; [intros _ (s & [] & _)|reflexivity]|]. split.
  - intros H (s' & [<-|I] & V); [|destruct (last_mark u x y l); [discriminate H|apply (proj1 IH eq_refl); eauto]].
    destruct (last_mark u x y l); [discriminate H|]. unfold mark_at in H. destruct V as (V1 & V2). rewrite (proj2 (Nat.eqb_eq _ _) (eq_sym V1)), (proj2 (Nat.leb_le _ _) (proj1 V2)), (proj2 (Nat.ltb_lt _ _) (proj2 V2)) in H. discriminate H.
  - intros H. rewrite (proj2 IH) by (intros (s' & I & V); apply H; eauto). destruct (mark_at u x y s) eqn:E; [|reflexivity]. exfalso. apply H. exists s. split; [auto|].
    unfold mark_at in E. apply andb_prop in E as (E & E3). apply andb_prop in E as (E1 & E2). split; lia.
Qed.
(** the picture drawn by spots *)
Definition picture_of (u : unicode) (spots : list spot) (x y : nat) : seen :=
  match last_mark u x y (map (fun s => (s, worn (s_style s))) spots) with Some v => v | None => Nothing Reset end.
Lemma spots_pictures u P out spots : clean out -> faithful out -> (forall x0 y0, screen u x0 y0 out = spots) ->
  (forall x y, (exists s, In s spots /\ covers u s x y) <-> P x y) -> pictures u P out (picture_of u spots).
Proof.
  intros C F S E t T. split; [rewrite run_pen, T; exact (proj2 F)|]. intros x y. rewrite run_cells by exact C. rewrite T, marks_screen by assumption. rewrite S. unfold picture_of.
  pose proof (@last_mark_none u x y (map (fun s => (s, worn (s_style s))) spots)) as L. rewrite map_map in L. cbn [fst] in L. rewrite map_id in L. split; intros H.
  - destruct (last_mark _ _ _ _); [reflexivity|]. exfalso. apply (proj1 L eq_refl). apply E, H.
  - rewrite (proj2 L); [reflexivity|]. intros X. apply H, E, X.
Qed.

(** ** Where it starts *)

Definition placed (out : list cmd) : Prop := out = [] \/ exists x y r, out = MoveTo x y :: r.
Lemma placed_screen u out x y : placed out -> screen u x y out = screen u 0 0 out.
Proof. intros [->|(x' & y' & r & ->)]; reflexivity. Qed.
Lemma view_placed {A} (render : A -> nat -> outcome (list cmd)) v out : tv_write_on render v = Ret out -> placed out.
Proof.
  assert (R : forall w sb rows lines j o, tv_write_rows render v w sb lines j rows = Ret o -> placed o).
  { intros w sb [|rows] lines j o H; cbn [tv_write_rows] in H; [injection H as <-; left; reflexivity|].
    inv1 H. inv1 H. destruct x0 as (c & l). inv1 H. injection H as <-. right. do 3 eexists. reflexivity. }
  unfold tv_write_on. intros H. inv1 H. inv1 H. eapply R, H.
Qed.

(** ** C94 *)

(** A text drawn in an area: its picture in all the cells of the area, and nothing else. The hypotheses are the ones of [C76_area_partial]. *)
Theorem C94_text : forall u special k um text a, usual u special k ->
  (6 <= a_width a)%N -> on_screen a -> margins_not_just k (N.to_nat (a_width a)) ->
  Forall (area_source u k (N.to_nat (a_width a) - 1)) text ->
  exists out, write_in_area_on u special k um text a = Ret out /\ draws u (inside a) out.
Proof.
  intros u special k um text a U W S M T. destruct (@C76_area_partial u special k um text a U W S M T) as (t & out & _ & E & F). exists out. split; [exact E|].
  eexists. apply spots_pictures; [| | |exact (proj1 (proj1 (F 0 0)))].
  - eapply clean_area. left. exact E.
  - eapply C80_area. left. exact E.
  - intros x0 y0. apply placed_screen. unfold write_in_area_on in E. inv1 E. eapply view_placed, E.
Qed.
(** A text in a scrollable view: hypotheses of [C76_view_partial] *)
Theorem C94_view : forall u special k um text a s, usual u special k ->
  (6 <= a_width a)%N -> (1 <= a_height a)%N -> on_screen a -> margins_not_just k (N.to_nat (a_width a)) ->
  Forall (area_source u k (N.to_nat (a_width a) - 1)) text ->
  exists t, area_text u k um text a = Ret t
  /\ (length (txt_lines t) < N.to_nat 65536 -> N.to_nat s <= length (txt_lines t) - N.to_nat (a_height a) ->
  exists out, mad_write_on u special k um text a s = Ret out /\ draws u (inside a) out).
Proof.
  intros u special k um text a s U W H S M T. destruct (@C76_view_partial u special k um text a s U W H S M T) as (t & Et & R). exists t. split; [exact Et|].
  intros L1 L2. destruct (R L1 L2) as (out & sb & E & _ & F). exists out. split; [exact E|].
  eexists. apply spots_pictures; [| | |exact (proj1 (proj1 (F 0 0)))].
  - eapply clean_area. right. eexists. exact E.
  - eapply C80_area. right. eexists. exact E.
  - intros x0 y0. apply placed_screen. unfold mad_write_on in E. inv1 E. eapply view_placed, E.
Qed.
Lemma tiles_cover u y : forall row from to, tiles u y from row to -> forall x' y', (exists s, In s row /\ covers u s x' y') <-> y' = y /\ from <= x' < to.
Proof.
  induction row as [|s r IH]; intros from to H x' y'; cbn [tiles] in H; [subst to; split; [intros (s & [] & _)|lia]|]. destruct H as (H1 & H2 & H3).
  pose proof (IH _ _ H3 x' y') as E. assert (L : from + chw u (s_char s) <= to).
  { clear - H3. revert H3. generalize (from + chw u (s_char s)). induction r as [|q r IH]; intros f H; cbn [tiles] in H; [lia|]. destruct H as (_ & _ & H). apply IH in H. lia. }
  split.
  - intros (s' & [<-|I] & V); [destruct V; lia|]. destruct (proj1 E (ex_intro _ s' (conj I V))). lia.
  - intros (-> & B). destruct (Nat.lt_ge_cases x' (from + chw u (s_char s))) as [L'|L'].
    + exists s. split; [left; reflexivity|]. split; [exact H1|lia].
    + destruct (proj2 E) as (s' & I & V); [lia|]. exists s'. split; [right; exact I|exact V].
Qed.
Lemma input_placed u f out p x y : M_Input.display_on u f = Ret (out, p) -> screen u x y out = screen u 0 0 out.
Proof.
  assert (R : forall normal sbs w sb rows lines y j o q, M_Input.draw_rows u f normal sbs w sb lines y j rows = Ret (o, q) -> placed o).
  { intros normal sbs w sb [|rows] lines y' j o q H; cbn [M_Input.draw_rows] in H; [injection H as <- _; left; reflexivity|].
    inv1 H. inv1 H. destruct x1 as (c & l). inv1 H. destruct x1. injection H as <- _. right. do 3 eexists. reflexivity. }
  unfold M_Input.display_on. intros H. inv1 H. inv1 H. inv1 H. destruct x2 as (o & q). injection H as <- _. cbn [screen]. apply placed_screen. eapply R. eassumption.
Qed.
(** An input field: hypotheses of [C13_rows_partial] *)
Theorem C94_field : forall u f out p, usual_widths u -> on_screen (M_Input.if_area f) -> 1 <= text_width f -> no_tab_shown f -> M_Input.display_on u f = Ret (out, p) ->
  draws u (inside (M_Input.if_area f)) out.
Proof.
  intros u f out p U S W T E. destruct (@C13_rows_partial u f out p U S W T E) as (rows & Er & L & R). eexists. apply spots_pictures with (spots := concat rows).
  - eapply clean_input. exact E.
  - eapply C80_input. exact E.
  - intros x0 y0. rewrite <- Er. eapply input_placed. exact E.
  - intros x y. unfold inside, S_View.cell_in. split.
    + intros (s & I & V). apply in_concat in I as (row & Ir & Is). apply In_nth_error in Ir as (j & Ej). pose proof (R j row Ej) as Tl.
      assert (j < length rows) by (apply nth_error_Some; congruence).
      destruct (proj1 (@tiles_cover _ _ _ _ _ Tl x y) (ex_intro _ s (conj Is V))). clear - H L H0 H1. lia.
    + intros ((X1 & X2) & (Y1 & Y2)). set (j := y - N.to_nat (a_top (M_Input.if_area f))). assert (J : j < length rows) by (unfold j; lia).
      destruct (nth_error rows j) as [row|] eqn:Ej; [|apply nth_error_None in Ej; lia]. pose proof (R j row Ej) as Tl.
      destruct (proj2 (@tiles_cover _ _ _ _ _ Tl x y)) as (s & I & V); [unfold j; lia|]. exists s. split; [|exact V]. apply in_concat. exists row. split; [eapply nth_error_In; exact Ej|exact I].
Qed.
(** A rectangle: the cells of its area if it's filled, or else only the ones of its border *)
Theorem C94_rect : forall u r, thin_border u (r_border r) -> on_screen (r_area r) -> 2 <= width_of r -> 2 <= height_of r ->
  exists out, rect_draw r = Ret out /\ draws u (if r_fill r then inside (r_area r) else on_border (r_area r)) out.
Proof.
  intros u r T S W H. destruct (@C50_cells u r 0 0 T S W H) as (out & E & Cs & _). exists out. split; [exact E|]. eexists. apply spots_pictures with (spots := screen u 0 0 out).
  - eapply clean_rect. exact E.
  - eapply C80_rect. exact E.
  - intros x0 y0. apply placed_screen. unfold rect_draw in E. inv1 E. inv1 E. inv1 E. inv1 E. apply Ret_inj in E. right. do 3 eexists. symmetry. exact E.
  - destruct (@C50_area r W H) as (A1 & A2 & A3 & A4). assert (One : forall x y c, cell_of r x y c -> chw u c = 1).
    { destruct T as (T1 & T2). unfold border_chars in T2. repeat match goal with X : Forall _ (_ :: _) |- _ => inversion X; clear X; subst end. intros x y c K. destruct K; assumption. }
    intros x y. transitivity (exists c, cell_of r x y c).
    + split.
      * intros ([sx sy st c] & I & V). apply Cs in I as (I & _). unfold covers in V. cbn [s_x s_y s_char] in V. rewrite (One _ _ _ I) in V. destruct V as (<- & V). exists c. replace x with sx by lia. exact I.
      * intros (c & I). exists (mkSpot x y (Some (r_colors r)) c). split; [apply Cs; auto|]. unfold covers. cbn [s_x s_y s_char]. rewrite (One _ _ _ I). lia.
    + unfold on_border, inside, S_View.cell_in. split.
      * intros (c & I). pose proof (A1 _ _ _ I) as B. unfold in_rect, left_of, top_of, width_of, height_of in *. destruct (r_fill r) eqn:Ef; [lia|]. pose proof (A4 _ _ _ I eq_refl). lia.
      * intros K. apply A3; unfold in_rect, left_of, top_of, width_of, height_of in *; destruct (r_fill r); lia.
Qed.
Lemma term_run_app u t a b : term_run u t (a ++ b) = term_run u (term_run u t a) b.
Proof. apply fold_left_app. Qed.
(** A new drawing replaces the whole of an older one *)
Theorem C94_again : forall u P a b t, draws u P a -> draws u P b -> (forall x y, P x y \/ ~ P x y) -> t_pen t = pen0 -> same_view (term_run u t (a ++ b)) (term_run u t b).
Proof.
  intros u P a b t (pa & A) (pb & B) D T. rewrite term_run_app. destruct (A t T) as (A1 & A2). destruct (B t T) as (B1 & B2). destruct (B _ A1) as (C1 & C2). split; [congruence|].
  intros x y. destruct (D x y) as [I|O].
  - rewrite (proj1 (C2 x y) I), (proj1 (B2 x y) I). reflexivity.
  - rewrite (proj2 (C2 x y) O), (proj2 (B2 x y) O), (proj2 (A2 x y) O). reflexivity.
Qed.
(** Any number of things drawn in separate cells, in any order: each one shows its picture, and nothing else is changed *)
Theorem C94_all : forall u (things : list ((nat -> nat -> Prop) * list cmd * (nat -> nat -> seen))) t,
  Forall (fun d => pictures u (fst (fst d)) (snd (fst d)) (snd d)) things ->
  ForallOrdPairs (fun d e => apart (fst (fst d)) (fst (fst e))) things -> t_pen t = pen0 ->
  let t' := term_run u t (concat (map (fun d => snd (fst d)) things)) in
  t_pen t' = pen0
  /\ (forall d x y, In d things -> fst (fst d) x y -> t_cell t' x y = snd d x y)
  /\ (forall x y, (forall d, In d things -> ~ fst (fst d) x y) -> t_cell t' x y = t_cell t x y).
Proof.
  intros u things. induction things as [|d r IH]; intros t F A T; [cbn; split; [exact T|split; [intros d x y []|reflexivity]]|].
  inversion F as [|? ? Fd Fr]; subst. inversion A as [|? ? Ad Ar]; subst. cbn [map concat]. cbv zeta. rewrite term_run_app. destruct (Fd t T) as (D1 & D2).
  destruct (IH _ Fr Ar D1) as (I1 & I2 & I3). split; [exact I1|]. split.
  - intros e x y [<-|I] H; [|apply (I2 e); assumption]. rewrite I3; [apply D2, H|]. intros e I K. rewrite Forall_forall in Ad. exact (Ad e I x y (conj H K)).
  - intros x y H. rewrite I3 by (intros e I; apply H; right; exact I). apply D2, H. left. reflexivity.
Qed.
Lemma apart_perm {A} (R : A -> A -> Prop) : (forall a b, R a b -> R b a) -> forall l m, Permutation l m -> ForallOrdPairs R l -> ForallOrdPairs R m.
Proof.
  intros S. induction 1 as [|a l m P IH|a b l|l m n P1 IH1 P2 IH2]; intros H; auto.
  - inversion H as [|? ? Ha Hl]; subst. constructor; [|auto]. rewrite Forall_forall in *. intros x I. apply Ha. eapply Permutation_in; [apply Permutation_sym; exact P|exact I].
  - inversion H as [|? ? Ha Hl]; subst. inversion Hl as [|? ? Hb Hr]; subst. inversion Ha; subst. constructor; [constructor; auto|]. constructor; assumption.
Qed.
Theorem C94_order : forall u things things' t,
  Forall (fun d => draws u (fst d) (snd d)) things -> ForallOrdPairs (fun d e => apart (fst d) (fst e)) things -> Permutation things things' -> t_pen t = pen0 ->
  (forall d x y, In d things -> fst d x y \/ ~ fst d x y) ->
  same_view (term_run u t (concat (map snd things))) (term_run u t (concat (map snd things'))).
Proof.
  intros u things things' t F A P T D.
  assert (G : forall l, Forall (fun d => draws u (fst d) (snd d)) l -> exists l', map fst l' = l /\ Forall (fun d => pictures u (fst (fst d)) (snd (fst d)) (snd d)) l').
  { clear. induction 1 as [|d l (p & H) _ (l' & E & IH)]; [exists []; split; [reflexivity|constructor]|]. exists ((fst d, snd d, p) :: l'). split; [cbn [map fst]; rewrite E; destruct d; reflexivity|constructor; assumption]. }
  destruct (G things F) as (l & El & Fl). clear G. subst things. apply Permutation_sym, Permutation_map_inv in P as (l' & -> & P).
  assert (M : forall (q : list ((nat -> nat -> Prop) * list cmd * (nat -> nat -> seen))), ForallOrdPairs (fun d e => apart (fst d) (fst e)) (map fst q) -> ForallOrdPairs (fun d e => apart (fst (fst d)) (fst (fst e))) q).
  { clear. induction q as [|d q IH]; intros H; [constructor|]. inversion H as [|? ? H1 H2]; subst. constructor; [|auto]. rewrite Forall_map in H1. exact H1. }
  apply M in A. clear M. assert (A' : ForallOrdPairs (fun d e => apart (fst (fst d)) (fst (fst e))) l').
  { eapply apart_perm; [|exact P|exact A]. intros a b K x y (H1 & H2). exact (K x y (conj H2 H1)). }
  assert (Fl' : Forall (fun d => pictures u (fst (fst d)) (snd (fst d)) (snd d)) l') by (eapply Permutation_Forall; eassumption).
  pose proof (@C94_all u l t Fl A T) as (B1 & B2 & B3). pose proof (@C94_all u l' t Fl' A' T) as (C1 & C2 & C3). rewrite !map_map. cbv zeta in *. split; [congruence|].
  intros x y. assert (X : (exists d, In d l /\ fst (fst d) x y) \/ forall d, In d l -> ~ fst (fst d) x y).
  { clear - D. induction l as [|d l IH]; [right; intros d []|]. destruct (D (fst d) x y (or_introl eq_refl)) as [H|H]; [left; exists d; split; [left; reflexivity|exact H]|].
    destruct IH as [(e & I & K)|IH]; [intros e x' y' I; apply D; right; exact I|left; exists e; split; [right; exact I|exact K]|]. right. intros e [<-|I]; auto. }
  destruct X as [(d & I & H)|N].
  - rewrite (B2 d x y I H). symmetry. apply C2; [eapply Permutation_in; eassumption|exact H].
  - rewrite (B3 x y N). symmetry. apply C3. intros d I. apply N. eapply Permutation_in; [apply Permutation_sym; exact P|exact I].
Qed.
(** The cells of areas, and of borders, can always be told apart from the others *)
Theorem C94_cells : forall a x y, (inside a x y \/ ~ inside a x y) /\ (on_border a x y \/ ~ on_border a x y).
Proof. intros a x y. unfold on_border, inside, S_View.cell_in. split; lia. Qed.

(** ** List views *)

Definition stays (l t b : nat) (c : cmd) : Prop :=
  match c with
  | MoveTo x y => l <= N.to_nat x /\ t <= N.to_nat y < b
  | ClearCurrentLine | ClearAll => False
  | _ => True
  end.
Lemma type_str_stays u p l t b : forall s tm, l <= t_x tm -> t <= t_y tm < b ->
  l <= t_x (type_str u tm p s) /\ t_y (type_str u tm p s) = t_y tm /\ forall x y, x < l \/ y < t \/ b <= y -> t_cell (type_str u tm p s) x y = t_cell tm x y.
Proof.
  induction s as [|c s IH]; intros tm X Y; [auto|]. cbn [type_str]. destruct (IH (type_char u tm p c)) as (A & B & C); [cbn; lia|exact Y|]. split; [exact A|]. split; [exact B|].
  intros x y O. rewrite C by exact O. cbn [type_char cell_now t_cell]. destruct ((y =? t_y tm) && (t_x tm <=? x) && (x <? t_x tm + chw u c)) eqn:E; [|reflexivity]. exfalso.
  apply andb_prop in E as (E & _). apply andb_prop in E as (E1 & E2). apply Nat.eqb_eq in E1. apply Nat.leb_le in E2. lia.
Qed.
Lemma run_stays u l t b : forall out tm, Forall (stays l t b) out -> l <= t_x tm -> t <= t_y tm < b ->
  forall x y, x < l \/ y < t \/ b <= y -> t_cell (term_run u tm out) x y = t_cell tm x y.
Proof.
  unfold term_run. induction out as [|c out IH]; intros tm F X Y x y O; [reflexivity|]. inversion F as [|? ? Fc Fr]; subst. cbn [fold_left].
  assert (G : l <= t_x (term_step u tm c) /\ t <= t_y (term_step u tm c) < b /\ t_cell (term_step u tm c) x y = t_cell tm x y).
  { destruct c as [s|cs s|c|c|mx my| | | |]; cbn [term_step with_pen erase cell_now t_x t_y t_cell]; try (split; [exact X|split; [exact Y|reflexivity]]); try contradiction Fc.
    - destruct (@type_str_stays u (t_pen tm) l t b s tm X Y) as (A & B & C). rewrite B. auto.
    - destruct (@type_str_stays u (worn_over (t_pen tm) cs) l t b s tm X Y) as (A & B & C). rewrite B. auto.
    - destruct Fc. auto.
    - split; [exact X|split; [exact Y|]]. destruct ((y =? t_y tm) && (t_x tm <=? x)) eqn:E; [|reflexivity]. apply andb_prop in E as (E1 & E2). apply Nat.eqb_eq in E1. apply Nat.leb_le in E2. lia. }
  destruct G as (A & B & C). rewrite IH; assumption.
Qed.
Definition tame (c : cmd) : Prop := match c with MoveTo _ _ | ClearCurrentLine | ClearAll => False | _ => True end.
Lemma tame_stays l t b out : Forall tame out -> Forall (stays l t b) out.
Proof. apply Forall_impl. intros []; cbn; tauto. Qed.
Lemma join_Forall {A} (P : A -> Prop) sep l : Forall P sep -> Forall (Forall P) l -> Forall P (M_List.join sep l).
Proof.
  intros S. induction 1 as [|x l X L IH]; cbn [M_List.join]; [constructor|]. apply Forall_app. split; [exact X|]. destruct l; [constructor|]. apply Forall_app. split; assumption.
Qed.
Lemma next_row_tame {T} (v : M_List.ListView T) : forall rs i, Forall tame (fst (M_List.next_row v rs i)).
Proof.
  induction rs as [|r rest IH]; intros i; cbn [M_List.next_row]; [repeat constructor|]. destruct (M_List.displayed r); [|apply IH]. cbn [fst]. unfold M_List.row_cmds. apply join_Forall.
  - destruct (match M_List.selection v with Some _ => _ | None => _ end); repeat constructor.
  - apply Forall_forall. intros x X. apply in_map_iff in X as (c & <- & _). cbv zeta. match goal with |- Forall _ (write_counted_str ?a ?b ?c ?d) => destruct (counted a b c d) as (s & ->) end. repeat constructor.
Qed.
Lemma row_lines_stays {T} (v : M_List.ListView T) sx sb b : (a_left (M_List.lv_area v) <= sx)%N -> forall n y i out, M_List.row_lines v sx sb y n i = Ret out ->
  N.to_nat (a_top (M_List.lv_area v)) + N.to_nat y + n <= b -> Forall (stays (N.to_nat (a_left (M_List.lv_area v))) (N.to_nat (a_top (M_List.lv_area v))) b) out.
Proof.
  intros X. induction n as [|n IH]; intros y i out H L; cbn [M_List.row_lines] in H; [injection H as <-; constructor|].
  inv1 H. inv1 H. destruct x0 as (row & i'). inv1 H. injection H as <-. unfold add16 in E. destruct (_ <? _)%N in E; [|discriminate E]. injection E as <-.
  apply Forall_cons; [cbn; lia|]. apply Forall_app. split.
  - apply tame_stays. unfold M_List.next_row_at in E0. destruct (i <=? _); [|discriminate E0]. injection E0 as E0. pose proof (next_row_tame v (skipn i (M_List.rows v)) i) as F. rewrite E0 in F. exact F.
  - apply Forall_app. split; [|apply (IH _ _ _ E1); lia]. destruct sb as [(q & r)|]; [|constructor]. apply Forall_cons; [cbn; lia|]. destruct (_ && _)%bool; repeat constructor.
Qed.
(** A list changes nothing at the left of its area, above it, or under it when its height is at least 2. Missing: the cells at its right, and a picture
    which doesn't depend on what was there before ([C94_list_refuted], [C94_list_again_refuted]). *)
Theorem C94_list_partial : forall u T (v : M_List.ListView T) out t, M_List.lv_write_on v = Ret out ->
  let a := M_List.lv_area v in
  forall x y, x < N.to_nat (a_left a) \/ y < N.to_nat (a_top a) \/ N.to_nat (a_top a) + Nat.max 2 (N.to_nat (a_height a)) <= y ->
  t_cell (term_run u t out) x y = t_cell t x y.
Proof.
  intros u T v out t H a. unfold M_List.lv_write_on in H. inv1 H. inv1 H. inv1 H. inv1 H. inv1 H. inv1 H. injection H as <-. intros cx cy O.
  unfold add16 in E, E1. destruct (_ <? _)%N in E; [|discriminate E]. destruct (_ <? _)%N in E1; [|discriminate E1]. injection E as <-. injection E1 as <-. fold a in E4 |- *.
  unfold term_run. cbn [fold_left]. cbn [term_step].
  transitivity (t_cell (mkTerm (t_cell t) (N.to_nat (a_left a)) (N.to_nat (a_top a)) (t_pen t)) cx cy); [|reflexivity].
  assert (TT : forall l t b, Forall (stays l t b) x0).
  { intros. apply tame_stays. unfold M_List.title_line in E0. inv1 E0. injection E0 as <-. apply join_Forall; [repeat constructor|]. eapply map_out_Forall; [|eassumption].
    intros q r Q. unfold M_List.title_cmds in Q. inv1 Q. inv1 Q. inv1 Q. inv1 Q. inv1 Q. injection Q as <-. unfold write_str. match goal with |- Forall _ (write_counted_str ?a ?b ?c ?d) => destruct (counted a b c d) as (s & ->) end. repeat constructor. }
  assert (TS : forall l t b, Forall (stays l t b) x2).
  { intros. apply tame_stays. unfold M_List.separator_line in E2. inv1 E2. injection E2 as <-. apply join_Forall; [repeat constructor|]. eapply map_out_Forall; [|eassumption].
    intros q r Q. unfold M_List.separator_cmds in Q. inv1 Q. injection Q as <-. apply join_Forall; [repeat constructor|]. apply Forall_forall. intros z Z. apply in_map_iff in Z as (c & <- & _).
    apply Forall_concat, Forall_forall. intros z Z. apply repeat_spec in Z. subst z. repeat constructor. }
  eapply run_stays with (l := N.to_nat (a_left a)) (t := N.to_nat (a_top a)) (b := N.to_nat (a_top a) + Nat.max 2 (N.to_nat (a_height a))); [|cbn [t_x]; lia|cbn [t_y]; lia|exact O].
  apply Forall_app. split; [apply TT|]. apply Forall_cons; [cbn [stays]; lia|]. apply Forall_app. split; [apply TS|]. eapply row_lines_stays; [|exact E4|]; subst a; lia.
Qed.

(** ** Examples *)

(** an empty terminal *)
Definition no_term : term := mkTerm (fun _ _ => Nothing Reset) 0 0 pen0.
(** a terminal full of [x] *)
Definition full_term : term := mkTerm (fun _ _ => Part 120%N 0 pen0) 0 0 pen0.
Definition char_seen (s : seen) : N := match s with Part c _ _ => c | Nothing _ => 32%N end.
Definition view_of (t : term) (x y w h : nat) : list (list N) := map (fun j => map (fun i => char_seen (t_cell t i j)) (seq x w)) (seq y h).
Definition of_out {A} (d : A) (o : outcome A) : A := match o with Ret a => a | _ => d end.
Definition rect_out := of_out [] (rect_draw (set_border_style (rect_new (mkArea 1 1 8 4) cs_default) BORDER_STYLE_MIDDLE_SQUARE_LINE)).
Definition text_out := of_out [] (write_in_area_on demo P_Render.no_special skin_default 1000 [P_Text.prose 8] (mkArea 2 2 6 2)).
(** A text in a frame, whatever was there and whichever is drawn first *)
Example C94_example :
  let shown := [[120; 120; 120; 120; 120; 120; 120; 120; 120; 120]; [120; 9484; 9472; 9472; 9472; 9472; 9472; 9472; 9488; 120];
     [120; 9474; 97; 97; 97; 97; 97; 32; 9474; 120]; [120; 9474; 97; 97; 97; 32; 32; 32; 9474; 120];
     [120; 9492; 9472; 9472; 9472; 9472; 9472; 9472; 9496; 120]; [120; 120; 120; 120; 120; 120; 120; 120; 120; 120]]%N in
  view_of (term_run demo full_term (rect_out ++ text_out)) 0 0 10 6 = shown /\ view_of (term_run demo full_term (text_out ++ rect_out)) 0 0 10 6 = shown
  /\ apart (inside (mkArea 2 2 6 2)) (on_border (mkArea 1 1 8 4)).
Proof. split; [vm_compute; reflexivity|]. split; [vm_compute; reflexivity|]. intros x y. unfold inside, on_border, inside, S_View.cell_in. cbn [a_left a_top a_width a_height]. lia. Qed.
(** The hypotheses of [C94_text] for it *)
Example C94_text_example : usual demo P_Render.no_special skin_default /\ margins_not_just skin_default 6 /\ Forall (area_source demo skin_default 5) [P_Text.prose 8] /\ on_screen (mkArea 2 2 6 2)
  /\ thin_border demo BORDER_STYLE_MIDDLE_SQUARE_LINE /\ on_screen (mkArea 1 1 8 4).
Proof.
  split; [exact P_Area.demo_usual|]. split; [intros kind ls El; destruct (default_margins _ El) as [-> ->]; discriminate|].
  split; [apply Forall_cons; [|constructor]; split; [split; [discriminate|exact I]|]; intros lm rm (ls & El & Em); destruct (default_margins _ El) as [El1 El2]; unfold margins_in in Em; rewrite El1, El2 in Em; cbn in Em; injection Em as <- <-; cbn; split; [lia|discriminate]|].
  split; [split; reflexivity|]. split; [split; [reflexivity|repeat constructor]|split; reflexivity].
Qed.
(** A list erases what is at the right of its area, where it has no row *)
Theorem C94_list_refuted : exists (v : M_List.ListView N) out x y, M_List.lv_write_on v = Ret out /\ ~ inside (M_List.lv_area v) x y
  /\ t_cell (term_run demo full_term out) x y <> t_cell full_term x y.
Proof.
  exists (P_List.demo_lv 6). eexists. exists 25, 3. split; [vm_compute; reflexivity|]. split; [|vm_compute; discriminate]. unfold inside, S_View.cell_in. vm_compute. intuition discriminate.
Qed.
(** and, where it has rows, it leaves what was there in the columns of its area it doesn't use *)
Theorem C94_list_again_refuted : exists (v : M_List.ListView N) out x y, M_List.lv_write_on v = Ret out /\ inside (M_List.lv_area v) x y
  /\ t_cell (term_run demo full_term out) x y = t_cell full_term x y /\ t_cell (term_run demo no_term out) x y = t_cell no_term x y.
Proof.
  exists (P_List.demo_lv 6). eexists. exists 18, 0. split; [vm_compute; reflexivity|]. split; [unfold inside, S_View.cell_in; vm_compute; intuition discriminate|]. split; vm_compute; reflexivity.
Qed.
(** An input field on a full terminal *)
Example C94_field_example : exists f out p, field_wide = Ret f /\ M_Input.display_on demo f = Ret (out, p) /\ on_screen (M_Input.if_area f) /\ text_width f = 6
  /\ view_of (term_run demo full_term out) 2 3 9 4
     = [[120; 120; 120; 120; 120; 120; 120; 120; 120]; [120; 8230; 101; 102; 103; 104; 32; 9616; 120]; [120; 8230; 32; 32; 32; 32; 32; 9616; 120]; [120; 120; 120; 120; 120; 120; 120; 120; 120]]%N.
Proof. eexists _, _, _. split; [vm_compute; reflexivity|]. split; [vm_compute; reflexivity|]. split; [split; reflexivity|]. split; [reflexivity|]. vm_compute. reflexivity. Qed.
Print Assumptions C94_text.
Print Assumptions C94_view.
Print Assumptions C94_field.
Print Assumptions C94_rect.
Print Assumptions C94_again.
Print Assumptions C94_all.
Print Assumptions C94_order.
Print Assumptions C94_cells.
Print Assumptions C94_list_partial.
Print Assumptions C94_list_refuted.
Print Assumptions C94_list_again_refuted.
