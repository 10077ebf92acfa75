(** * Property C97: the borders of rectangles and tables join up *)
From Verif Require Import Base L_Base Demo M_Style M_Fit S_Fit L_Fit M_Wrap S_Wrap L_Wrap P_Wrap M_TblFit S_TblFit P_TblFit M_Text S_Text L_Text L_Text2 L_Text3 P_Text
  M_Fitter S_Fitter L_Fitter P_Fitter M_View S_View P_View S_Input M_Rect S_Rect P_Rect M_Render S_Render L_Render P_Render S_Border.
Set Implicit Arguments.
Open Scope nat_scope.

Lemma arms_arm c l s : arms c l -> (arm c s <-> In s l).
Proof.
  intros (l' & Hi & H). split.
  - intros (l2 & H2 & Hs). assert (l2 = l') as ->; [|apply H, Hs].
    assert (forall a b, In (c, a) box_chars -> In (c, b) box_chars -> a = b) as X; [|eauto].
    clear. intros a b Ha Hb. cbn in Ha, Hb.
    repeat (destruct Ha as [Ha|Ha]; [injection Ha as <- <-; repeat (destruct Hb as [Hb|Hb]; [injection Hb; intros; (congruence || discriminate)|]); destruct Hb|]). destruct Ha.
  - intros Hs. exists l'. split; [exact Hi|]. apply H, Hs.
Qed.

Ltac same_arms := intros s; cbn; destruct s; intuition discriminate.
Ltac find_arms := eexists; split; [cbn; repeat (first [left; reflexivity | right])|same_arms].
(** The borders made of lines *)
Theorem C97_lines : Forall joining [STANDARD_TBC; ROUNDED_TBC] /\ Forall joining_rect [BORDER_STYLE_MIDDLE_SQUARE_LINE; BORDER_STYLE_MIDDLE_ROUND_LINE]
  /\ ASCII_TBC = mkTBC 45 124 43 43 43 43 43 43 43 43 43.
Proof. split; [|split; [|reflexivity]]; (constructor; [|constructor; [|constructor]]); constructor; find_arms. Qed.
Print Assumptions C97_lines.

Lemma space_no_arm s : ~ arm 32%N s.
Proof. intros (l & H & _). cbn in H. repeat (destruct H as [H|H]; [discriminate|]). exact H. Qed.
Lemma space_not_filled a b : ~ filled 32%N a b.
Proof. intros (l & H & _). cbn in H. repeat (destruct H as [H|H]; [discriminate|]). exact H. Qed.

(** The line drawn around a rectangle is closed: every arm meets another one, and there are exactly two arms in each cell of the border *)
Theorem C97_rect : forall u r x0 y0, thin_border u (r_border r) -> on_screen (r_area r) -> 2 <= width_of r -> 2 <= height_of r -> joining_rect (r_border r) ->
  exists out, rect_draw r = Ret out
  /\ (forall p s, In p (screen u x0 y0 out) -> arm (s_char p) s ->
        exists p', In p' (screen u x0 y0 out) /\ beside s (s_x p) (s_y p) (s_x p') (s_y p') /\ arm (s_char p') (opposite s))
  /\ (forall p, In p (screen u x0 y0 out) -> s_x p = left_of r \/ s_x p = left_of r + width_of r - 1 \/ s_y p = top_of r \/ s_y p = top_of r + height_of r - 1 ->
        exists s s', s <> s' /\ arms (s_char p) [s; s']).
Proof.
  intros u r x0 y0 Ht Hs Hw Hh J. destruct (@C50_cells u r x0 y0 Ht Hs Hw Hh) as (out & E & C & _). exists out. split; [exact E|].
  destruct J as [J1 J2 J3 J4 J5 J6 J7 J8]. split.
  - intros [x y st c] s Hin Ha. cbn [s_x s_y s_char] in *. apply C in Hin as (Hc & ->).
    assert (X : exists x' y' c', cell_of r x' y' c' /\ beside s x y x' y' /\ arm c' (opposite s)).
    2:{ destruct X as (x' & y' & c' & X1 & X2 & X3). exists (mkSpot x' y' (Some (r_colors r)) c'). split; [apply C; auto|]. auto. }
    clear C E.
    assert (TL : cell_of r (left_of r) (top_of r) (b_top_left (r_border r))) by constructor.
    assert (TR : cell_of r ((left_of r) + (width_of r) - 1) (top_of r) (b_top_right (r_border r))) by constructor.
    assert (BL : cell_of r (left_of r) ((top_of r) + (height_of r) - 1) (b_bottom_left (r_border r))) by constructor.
    assert (BR : cell_of r ((left_of r) + (width_of r) - 1) ((top_of r) + (height_of r) - 1) (b_bottom_right (r_border r))) by constructor.
    assert (T : forall x, (left_of r) < x < (left_of r) + (width_of r) - 1 -> cell_of r x (top_of r) (b_top (r_border r))) by (intros; constructor; assumption).
    assert (B : forall x, (left_of r) < x < (left_of r) + (width_of r) - 1 -> cell_of r x ((top_of r) + (height_of r) - 1) (b_bottom (r_border r))) by (intros; constructor; assumption).
    assert (L : forall y, (top_of r) < y < (top_of r) + (height_of r) - 1 -> cell_of r (left_of r) y (b_left (r_border r))) by (intros; constructor; assumption).
    assert (R : forall y, (top_of r) < y < (top_of r) + (height_of r) - 1 -> cell_of r ((left_of r) + (width_of r) - 1) y (b_right (r_border r))) by (intros; constructor; assumption).
    assert (top_at : forall x, (left_of r) <= x < (left_of r) + (width_of r) -> exists c, cell_of r x (top_of r) c /\ ((left_of r) < x -> arm c SLeft) /\ (x < (left_of r) + (width_of r) - 1 -> arm c SRight)).
    { intros z Hz. destruct (Nat.eq_dec z (left_of r)) as [->|N1]; [|destruct (Nat.eq_dec z ((left_of r) + (width_of r) - 1)) as [->|N2]]; eexists; (split; [eauto || (apply T; lia)|]); split; intros; try lia; eapply arms_arm; eauto; cbn; tauto. }
    assert (bot_at : forall x, (left_of r) <= x < (left_of r) + (width_of r) -> exists c, cell_of r x ((top_of r) + (height_of r) - 1) c /\ ((left_of r) < x -> arm c SLeft) /\ (x < (left_of r) + (width_of r) - 1 -> arm c SRight)).
    { intros z Hz. destruct (Nat.eq_dec z (left_of r)) as [->|N1]; [|destruct (Nat.eq_dec z ((left_of r) + (width_of r) - 1)) as [->|N2]]; eexists; (split; [eauto || (apply B; lia)|]); split; intros; try lia; eapply arms_arm; eauto; cbn; tauto. }
    assert (left_at : forall y, (top_of r) <= y < (top_of r) + (height_of r) -> exists c, cell_of r (left_of r) y c /\ ((top_of r) < y -> arm c SUp) /\ (y < (top_of r) + (height_of r) - 1 -> arm c SDown)).
    { intros z Hz. destruct (Nat.eq_dec z (top_of r)) as [->|N1]; [|destruct (Nat.eq_dec z ((top_of r) + (height_of r) - 1)) as [->|N2]]; eexists; (split; [eauto || (apply L; lia)|]); split; intros; try lia; eapply arms_arm; eauto; cbn; tauto. }
    assert (right_at : forall y, (top_of r) <= y < (top_of r) + (height_of r) -> exists c, cell_of r ((left_of r) + (width_of r) - 1) y c /\ ((top_of r) < y -> arm c SUp) /\ (y < (top_of r) + (height_of r) - 1 -> arm c SDown)).
    { intros z Hz. destruct (Nat.eq_dec z (top_of r)) as [->|N1]; [|destruct (Nat.eq_dec z ((top_of r) + (height_of r) - 1)) as [->|N2]]; eexists; (split; [eauto || (apply R; lia)|]); split; intros; try lia; eapply arms_arm; eauto; cbn; tauto. }
    clear TL TR BL BR T B L R.
    assert (fin : forall x' y', beside s x y x' y' -> (exists c, cell_of r x' y' c /\ arm c (opposite s)) -> exists x' y' c', cell_of r x' y' c' /\ beside s x y x' y' /\ arm c' (opposite s)) by (intros x' y' H (c' & H1 & H2); eauto 6).
    destruct Hc.
    + apply (arms_arm s J1) in Ha. destruct Ha as [<-|[<-|[]]].
      * apply (fin (S (left_of r)) (top_of r)); [cbn; lia|]. destruct (top_at (S (left_of r)) ltac:(lia)) as (c & H1 & H2 & _). exists c. split; [exact H1|apply H2; lia].
      * apply (fin (left_of r) (S (top_of r))); [cbn; lia|]. destruct (left_at (S (top_of r)) ltac:(lia)) as (c & H1 & H2 & _). exists c. split; [exact H1|apply H2; lia].
    + apply (arms_arm s J2) in Ha. destruct Ha as [<-|[<-|[]]].
      * apply (fin ((left_of r) + (width_of r) - 2) (top_of r)); [cbn; lia|]. destruct (top_at ((left_of r) + (width_of r) - 2) ltac:(lia)) as (c & H1 & _ & H2). exists c. split; [exact H1|apply H2; lia].
      * apply (fin ((left_of r) + (width_of r) - 1) (S (top_of r))); [cbn; lia|]. destruct (right_at (S (top_of r)) ltac:(lia)) as (c & H1 & H2 & _). exists c. split; [exact H1|apply H2; lia].
    + apply (arms_arm s J3) in Ha. destruct Ha as [<-|[<-|[]]].
      * apply (fin (S (left_of r)) ((top_of r) + (height_of r) - 1)); [cbn; lia|]. destruct (bot_at (S (left_of r)) ltac:(lia)) as (c & H1 & H2 & _). exists c. split; [exact H1|apply H2; lia].
      * apply (fin (left_of r) ((top_of r) + (height_of r) - 2)); [cbn; lia|]. destruct (left_at ((top_of r) + (height_of r) - 2) ltac:(lia)) as (c & H1 & _ & H2). exists c. split; [exact H1|apply H2; lia].
    + apply (arms_arm s J4) in Ha. destruct Ha as [<-|[<-|[]]].
      * apply (fin ((left_of r) + (width_of r) - 2) ((top_of r) + (height_of r) - 1)); [cbn; lia|]. destruct (bot_at ((left_of r) + (width_of r) - 2) ltac:(lia)) as (c & H1 & _ & H2). exists c. split; [exact H1|apply H2; lia].
      * apply (fin ((left_of r) + (width_of r) - 1) ((top_of r) + (height_of r) - 2)); [cbn; lia|]. destruct (right_at ((top_of r) + (height_of r) - 2) ltac:(lia)) as (c & H1 & _ & H2). exists c. split; [exact H1|apply H2; lia].
    + apply (arms_arm s J5) in Ha. destruct Ha as [<-|[<-|[]]].
      * apply (fin (x - 1) (top_of r)); [cbn; lia|]. destruct (top_at (x - 1) ltac:(lia)) as (c & H1 & _ & H2). exists c. split; [exact H1|apply H2; lia].
      * apply (fin (S x) (top_of r)); [cbn; lia|]. destruct (top_at (S x) ltac:(lia)) as (c & H1 & H2 & _). exists c. split; [exact H1|apply H2; lia].
    + apply (arms_arm s J6) in Ha. destruct Ha as [<-|[<-|[]]].
      * apply (fin (x - 1) ((top_of r) + (height_of r) - 1)); [cbn; lia|]. destruct (bot_at (x - 1) ltac:(lia)) as (c & H1 & _ & H2). exists c. split; [exact H1|apply H2; lia].
      * apply (fin (S x) ((top_of r) + (height_of r) - 1)); [cbn; lia|]. destruct (bot_at (S x) ltac:(lia)) as (c & H1 & H2 & _). exists c. split; [exact H1|apply H2; lia].
    + apply (arms_arm s J7) in Ha. destruct Ha as [<-|[<-|[]]].
      * apply (fin (left_of r) (y - 1)); [cbn; lia|]. destruct (left_at (y - 1) ltac:(lia)) as (c & H1 & _ & H2). exists c. split; [exact H1|apply H2; lia].
      * apply (fin (left_of r) (S y)); [cbn; lia|]. destruct (left_at (S y) ltac:(lia)) as (c & H1 & H2 & _). exists c. split; [exact H1|apply H2; lia].
    + apply (arms_arm s J8) in Ha. destruct Ha as [<-|[<-|[]]].
      * apply (fin ((left_of r) + (width_of r) - 1) (y - 1)); [cbn; lia|]. destruct (right_at (y - 1) ltac:(lia)) as (c & H1 & _ & H2). exists c. split; [exact H1|apply H2; lia].
      * apply (fin ((left_of r) + (width_of r) - 1) (S y)); [cbn; lia|]. destruct (right_at (S y) ltac:(lia)) as (c & H1 & H2 & _). exists c. split; [exact H1|apply H2; lia].
    + destruct (space_no_arm Ha).
  - intros [x y st c] Hin Hb. cbn [s_x s_y s_char] in *. apply C in Hin as (Hc & ->). destruct Hc; try (do 2 eexists; split; [|eassumption]; discriminate). lia.
Qed.
Print Assumptions C97_rect.

(** With the half-width border, the filled quarters of the cells are exactly the ones which are along the sides of the area *)
Theorem C97_half : forall u r x0 y0, thin_border u (r_border r) -> on_screen (r_area r) -> 2 <= width_of r -> 2 <= height_of r ->
  r_border r = BORDER_STYLE_HALF_WIDTH_OUTSIDE ->
  exists out, rect_draw r = Ret out
  /\ forall p right lower, In p (screen u x0 y0 out) -> (filled (s_char p) right lower <->
       let x := 2 * s_x p + Nat.b2n right in let y := 2 * s_y p + Nat.b2n lower in
       x = 2 * left_of r \/ x = 2 * (left_of r + width_of r) - 1 \/ y = 2 * top_of r \/ y = 2 * (top_of r + height_of r) - 1).
Proof.
  intros u r x0 y0 Ht Hs Hw Hh J. destruct (@C50_cells u r x0 y0 Ht Hs Hw Hh) as (out & E & C & _). exists out. split; [exact E|].
  intros [x y st c] right lower Hin. cbn [s_x s_y s_char] in *. apply C in Hin as (Hc & _). clear C E Ht Hs.
  assert (F : forall c l, In (c, l) block_chars -> (filled c right lower <-> In (right, lower) l)).
  { clear. intros c l Hi. split; [|exists l; auto]. intros (l2 & H2 & Hs). assert (l2 = l) as ->; [|exact Hs]. cbn in Hi, H2.
    repeat (destruct Hi as [Hi|Hi]; [injection Hi as <- <-; repeat (destruct H2 as [H2|H2]; [injection H2; intros; (congruence || discriminate)|]); destruct H2|]). destruct Hi. }
  destruct Hc; rewrite ?J; cbn [BORDER_STYLE_HALF_WIDTH_OUTSIDE b_top_left b_top_right b_bottom_left b_bottom_right b_top b_bottom b_left b_right].
  9:{ split; [intros X; destruct (space_not_filled X)|]. destruct right, lower; cbn [Nat.b2n]; lia. }
  all: match goal with |- filled ?c _ _ <-> _ => erewrite (F c); [|cbn; repeat (first [left; reflexivity | right])] end.
  all: destruct right, lower; cbn [Nat.b2n]; cbn [In]; (split; [intros X|intros X]); try (repeat (destruct X as [X|X]; [first [discriminate X|lia]|]); (contradiction || lia)); tauto || lia.
Qed.
Print Assumptions C97_half.

(** ** Tables *)
Lemma at_app u a d x c st : at_column u d x c st -> at_column u (a ++ d) (drawn_width u a + x) c st.
Proof. intros (p & q & -> & <-). exists (a ++ p), q. split; [now rewrite app_assoc|]. apply width_app. Qed.
Lemma at_app_r u d b x c st : at_column u d x c st -> at_column u (d ++ b) x c st.
Proof. intros (p & q & -> & E). exists p, (q ++ b). split; [now rewrite <- app_assoc|exact E]. Qed.
Lemma edge_S w ws j : edge (w :: ws) (S j) = S (w + edge ws j).
Proof. unfold edge. cbn [firstn sum]. lia. Qed.
Lemma shared_unique al inner outer lp rp lp' rp' : shared_opt al inner outer lp rp -> shared_opt al inner outer lp' rp' -> lp = lp'.
Proof. destruct outer as [w|]; cbn [shared_opt]; [|lia]. unfold shared. destruct al; lia. Qed.

(** A rule, as its separators each followed by its part of the line *)
Fixpoint rule_seq (h m r : char * CStyle) (a : char * CStyle) (ws : list nat) : list (char * CStyle) :=
  match ws with [] => [r] | w :: ws => a :: repeat h w ++ rule_seq h m r m ws end.
Lemma rule_seq_ok k l m r ws : ws <> [] -> let cs := ls_cs (table k) in
  rule_drawn k l m r ws = rule_seq (horizontal (table_border_chars k), cs) (m, cs) (r, cs) (l, cs) ws.
Proof.
  intros N cs. destruct ws as [|w ws]; [congruence|]. unfold rule_drawn. fold cs. cbn [rule_seq]. f_equal. rewrite <- app_assoc. f_equal. clear N w.
  induction ws as [|w ws IH]; [reflexivity|]. cbn [flat_map rule_seq app]. f_equal. rewrite <- app_assoc. f_equal. exact IH.
Qed.
Lemma rule_seq_edge u h m r a ws j : chw u (fst h) = 1 -> chw u (fst m) = 1 -> chw u (fst a) = 1 -> j <= length ws ->
  let p := if j =? length ws then r else if j =? 0 then a else m in at_column u (rule_seq h m r a ws) (edge ws j) (fst p) (snd p).
Proof.
  intros Hh Hm. revert a j. induction ws as [|w ws IH]; intros a j Ha Hj.
  - cbn in Hj. replace j with 0 by lia. cbn. exists [], []. destruct r. split; reflexivity.
  - destruct j as [|j]; [exists [], (repeat h w ++ rule_seq h m r m ws); destruct a; split; reflexivity|]. cbn [length] in Hj. specialize (IH m j Hm ltac:(lia)).
    cbn [length Nat.eqb]. replace (if j =? length ws then r else m) with (if j =? length ws then r else if j =? 0 then m else m) by (destruct (j =? length ws), (j =? 0); reflexivity).
    rewrite edge_S. cbn [rule_seq]. change (a :: repeat h w ++ rule_seq h m r m ws) with ((a :: repeat h w) ++ rule_seq h m r m ws).
    replace (S (w + edge ws j)) with (drawn_width u (a :: repeat h w) + edge ws j) by (rewrite width_cons, Ha, width_repeat by exact Hh; lia). apply at_app, IH.
Qed.
Lemma rule_seq_line u h m r a ws x : chw u (fst h) = 1 -> chw u (fst m) = 1 -> chw u (fst a) = 1 -> x < edge ws (length ws) -> (forall j, j <= length ws -> x <> edge ws j) ->
  at_column u (rule_seq h m r a ws) x (fst h) (snd h).
Proof.
  intros Hh Hm. revert a x. induction ws as [|w ws IH]; intros a x Ha Hx Hn; [cbn in Hx; lia|]. cbn [length] in *. rewrite edge_S in Hx. cbn [rule_seq].
  pose proof (Hn 0 ltac:(lia)) as H0. unfold edge in H0. cbn in H0. destruct x as [|x]; [lia|].
  change (a :: repeat h w ++ rule_seq h m r m ws) with ([a] ++ (repeat h w ++ rule_seq h m r m ws)). replace (S x) with (drawn_width u [a] + x) by (rewrite width_cons, Ha; reflexivity).
  apply at_app. destruct (Nat.lt_ge_cases x w) as [L|L].
  - apply at_app_r. exists (repeat h x), (repeat h (w - S x)). split.
    + replace (repeat h w) with (repeat h (x + S (w - S x))) by (f_equal; lia). rewrite repeat_app. destruct h. reflexivity.
    + apply width_repeat, Hh.
  - replace x with (drawn_width u (repeat h w) + (x - w)) by (rewrite width_repeat by exact Hh; lia). apply at_app. apply IH; [exact Hm|lia|].
    intros j Hj E. apply (Hn (S j)); [lia|]. rewrite edge_S. lia.
Qed.
(** The borders of a row *)
Lemma row_edge u special k cells ds j : narrow_chars u k -> same_widths u special -> Forall (in_room u k) cells ->
  Forall2 (fun c dc => composite_drawn special k c None false false dc) cells ds -> j <= length cells ->
  let v := (vertical (table_border_chars k), ls_cs (table k)) in
  at_column u (flat_map (fun dc => v :: dc) ds ++ [v]) (edge (map room cells) j) (fst v) (snd v).
Proof.
  intros Hn Hs Hr HF Hj v. assert (Hv : chw u (fst v) = 1) by (cbn [v fst]; narrow Hn). revert j Hj. induction HF as [|c d cells ds Hc _ IH]; intros j Hj.
  - cbn in Hj. replace j with 0 by lia. exists [], []. split; reflexivity.
  - inversion Hr as [|? ? Hr1 Hr2]; subst. destruct j as [|j]; [exists [], (d ++ flat_map (fun dc => v :: dc) ds ++ [v]); split; [cbn [flat_map app]; rewrite <- app_assoc; reflexivity|reflexivity]|].
    cbn [length] in Hj. cbn [map]. rewrite edge_S. cbn [flat_map].
    destruct (composite_width Hn Hs Hr1 Hc) as (ls & lm & rm & lp & rp & _ & [M _] & So & W). specialize (M eq_refl). cbn [shared_opt] in So.
    replace (S (room c + edge (map room cells) j)) with (drawn_width u (v :: d) + edge (map room cells) j) by (rewrite width_cons, W, Hv; lia).
    rewrite <- app_assoc. apply (at_app (v :: d)). apply IH; [exact Hr2|lia].
Qed.

(** What's drawn for the borders by one line of a table *)
Definition borders_of (u : unicode) (k : MadSkin) (lp : nat) (ws : list nat) (line : FmtLine) (d : list (char * CStyle)) : Prop :=
  let t := table_border_chars k in let st := ls_cs (table k) in
  (forall j, j <= length ws -> at_column u d (lp + edge ws j) match line with
     | TableRule r => if j =? length ws then rule_right t (position r) else if j =? 0 then rule_left t (position r) else rule_mid t (position r)
     | _ => vertical t end st)
  /\ (is_rule line -> forall x, x < edge ws (length ws) -> (forall j, j <= length ws -> x <> edge ws j) -> at_column u d (lp + x) (horizontal t) st).
Lemma line_borders u special k ws line width wr out : narrow_chars u k -> same_widths u special -> line_in_room u k line -> has_columns ws line -> ws <> [] ->
  write_fmt_line special k line width wr = Ret out ->
  exists lp rp, shared_opt (ls_align (table k)) (table_line_width ws) width lp rp /\ borders_of u k lp ws line (drawn out).
Proof.
  intros Hn Hs Hr Hc Hw E. apply line_spec in E. assert (H32 : chw u 32%N = 1) by (narrow Hn). assert (Hh : chw u (horizontal (table_border_chars k)) = 1) by (narrow Hn).
  destruct line as [fc|cells|r|]; cbn [line_drawn line_in_room has_columns] in *; try tauto.
  - destruct E as (lp & rp & ds & So & HF & ->). rewrite (columns_room Hc) in So. exists lp, rp. split; [exact So|]. split; [|intros (r & H); discriminate].
    intros j Hj. rewrite <- (columns_room Hc) in *. rewrite map_length in Hj.
    replace (lp + edge (map room cells) j) with (drawn_width u (blanks (ls_cs (paragraph k)) lp) + edge (map room cells) j) by (rewrite blanks_width by exact H32; reflexivity).
    apply at_app. rewrite app_assoc. apply at_app_r. apply (row_edge Hn Hs Hr HF Hj).
  - destruct Hc as (Hws & _). destruct E as (lp & rp & So & ->). rewrite Hws in *. exists lp, rp. split; [exact So|].
    assert (Er : match position r with
      | Top => rule_drawn k (top_left_corner (table_border_chars k)) (top_junction (table_border_chars k)) (top_right_corner (table_border_chars k)) ws
      | Other => rule_drawn k (left_junction (table_border_chars k)) (cross (table_border_chars k)) (right_junction (table_border_chars k)) ws
      | Bottom => rule_drawn k (bottom_left_corner (table_border_chars k)) (bottom_junction (table_border_chars k)) (bottom_right_corner (table_border_chars k)) ws
      end = rule_seq (horizontal (table_border_chars k), ls_cs (table k)) (rule_mid (table_border_chars k) (position r), ls_cs (table k))
              (rule_right (table_border_chars k) (position r), ls_cs (table k)) (rule_left (table_border_chars k) (position r), ls_cs (table k)) ws).
    { destruct (position r); rewrite rule_seq_ok by exact Hw; reflexivity. }
    rewrite Er. clear Er.
    assert (Hm : chw u (rule_mid (table_border_chars k) (position r)) = 1) by (destruct (position r); cbn [rule_mid]; narrow Hn).
    assert (Hl : chw u (rule_left (table_border_chars k) (position r)) = 1) by (destruct (position r); cbn [rule_left]; narrow Hn).
    assert (W : forall x, lp + x = drawn_width u (blanks (ls_cs (paragraph k)) lp) + x) by (intros; rewrite blanks_width by exact H32; reflexivity).
    split.
    + intros j Hj. rewrite W. apply at_app. apply at_app_r.
      pose proof (@rule_seq_edge u (horizontal (table_border_chars k), ls_cs (table k)) (rule_mid (table_border_chars k) (position r), ls_cs (table k))
              (rule_right (table_border_chars k) (position r), ls_cs (table k)) (rule_left (table_border_chars k) (position r), ls_cs (table k)) ws j Hh Hm Hl Hj) as X.
      cbv zeta in X. destruct (j =? length ws), (j =? 0); exact X.
    + intros _ x Hx Hne. rewrite W. apply at_app. apply at_app_r. apply rule_seq_line; assumption.
Qed.

(** ** From the source to the lines of the tables *)
Lemma runs_groups A (p : A -> bool) (P : list A -> Prop) lines gs : all_runs p P lines ->
  Forall2 (fun l g => if p l then g = [l] else g <> [] /\ Forall (fun x => p x = false) g) lines gs -> all_runs p P (concat gs).
Proof.
  intros H. revert gs. induction H as [|l a Hl _ IH|t a Hne Ht Ha HP _ IH]; intros gs HF.
  - inversion HF; subst. constructor.
  - inversion HF as [|? g ? gs' Hg HF']; subst. rewrite Hl in Hg. destruct Hg as (_ & Hg). cbn [concat]. specialize (IH _ HF'). clear - Hg IH.
    induction Hg as [|x g Hx _ IHg]; [exact IH|]. cbn [app]. constructor; [exact Hx|exact IHg].
  - apply Forall2_app_inv_l in HF as (g1 & g2 & F1 & F2 & ->). rewrite concat_app.
    assert (concat g1 = t) as ->.
    { clear - Ht F1. revert Ht. induction F1 as [|l g t g1 Hg _ IH]; intros Ht; [reflexivity|]. inversion Ht; subst. rewrite H1 in Hg. subst g. cbn. f_equal. apply IH. assumption. }
    constructor; try assumption; [|apply IH; exact F2].
    destruct F2 as [|x g a' gs' Hg F2]; [exact I|]. cbn [starts_out] in Ha. rewrite Ha in Hg. destruct Hg as (N & Hg). destruct g as [|y g]; [congruence|]. cbn. inversion Hg; assumption.
Qed.
Lemma by_runs_all A (p : A -> bool) R (P : list A -> Prop) a b : by_runs p R a b ->
  (forall t t', incl t a -> t <> [] -> Forall (fun l => p l = true) t -> R t t' -> t' <> [] /\ Forall (fun l => p l = true) t' /\ P t') -> all_runs p P b.
Proof.
  induction 1 as [|l a b Hl _ IH|t t' a b Hne Ht Ha HR Hb IH]; intros H.
  - constructor.
  - constructor; [exact Hl|]. apply IH. intros t t' Hi. apply H. intros x Hx. right. apply Hi, Hx.
  - destruct (H t t') as (H1 & H2 & H3); try assumption; [apply incl_appl, incl_refl|]. constructor; try assumption.
    + destruct Hb as [|l a b Hl _|t2 t2' a b Hn2 Ht2 _ HR2 _]; [exact I|exact Hl|]. destruct t2; [congruence|]. inversion Ht2; subst. cbn in Ha. congruence.
    + apply IH. intros t0 t0' Hi. apply H. apply incl_appr, Hi.
Qed.

Definition positioned (ws : list nat) (t : list FmtLine) : Prop :=
  Forall (has_columns ws) t /\ forall i r, nth_error t i = Some (TableRule r) -> (position r = Top <-> i = 0) /\ (position r = Bottom <-> i <> 0 /\ S i = length t).
Lemma by_runs_one A (p : A -> bool) R t t' : by_runs p R t t' -> t <> [] -> Forall (fun l => p l = true) t -> R t t'.
Proof.
  intros H N F. destruct H as [|l a b Hl _|t t' a b Hn Ht Ha HR Hb]; [congruence|inversion F; congruence|].
  apply Forall_app in F as (_ & F). destruct a as [|x a]; [|inversion F; subst; cbn in Ha; congruence].
  inversion Hb as [| |t2 ? ? ? N2 _ _ _ _ E]; subst; [rewrite !app_nil_r; exact HR|]. destruct t2; [congruence|discriminate E].
Qed.
Lemma text_tables u k um text width t : additive u -> 5 <= width -> from_text u k um text (Some width) = Ret t -> Forall (fitting_source u k width) text ->
  all_runs is_table (fun tb => exists ws, ws <> [] /\ positioned ws tb /\ Forall (line_in_room u k) tb) (txt_lines t).
Proof.
  intros Hu Hw E Hsrc. unfold from_text in E. apply bind_Ret_inv in E as (l1 & E1 & E).
  destruct (Nat.leb_spec 3 width); [|lia]. apply bind_Ret_inv in E as ([l3|] & E3 & E); [|discriminate]. injection E as <-. cbn [txt_lines].
  assert (S1 : all_runs is_table (fun tb => exists ws, ws <> [] /\ positioned ws tb /\ Forall (line_in_room u k) tb) l1).
  { apply fix_all_iff in E1. rewrite Forall_forall in Hsrc. eapply by_runs_all; [exact E1|]. intros tb tb' Hi Hne Ht Hlaid.
    assert (H0 : 0 < table_cols tb).
    { destruct tb as [|l tb]; [congruence|]. pose proof (cols_asked_le (l :: tb)) as Hle. inversion Hle as [|? ? Hle1 _]; subst.
      specialize (Hi l (or_introl eq_refl)). inversion Ht as [|? ? Htl _]; subst. apply in_map_iff in Hi as (m & <- & Hm). specialize (Hsrc _ Hm).
      destruct m as [c|cells|als| |]; try discriminate; cbn [line_from cols_asked fitting_source aligns] in *.
      - destruct Hsrc as [Hc _]. eapply Nat.lt_le_trans; [|exact Hle1]. rewrite map_length. destruct cells; [congruence|]. cbn. lia.
      - eapply Nat.lt_le_trans; [|exact Hle1]. destruct als; [congruence|]. cbn. lia. }
    assert (HP : Forall (printable u k width) tb').
    { eapply laid_printable; [exact Hu|exact Hw|exact Ht|exact Hlaid|exact H0|].
      intros cells c Hin Hc. specialize (Hi _ Hin). apply in_map_iff in Hi as (m & Em & Hm). specialize (Hsrc _ Hm).
      destruct m as [|cells0|als| |]; try discriminate. cbn [line_from] in Em. injection Em as <-. apply in_map_iff in Hc as (c0 & <- & Hc0).
      destruct Hsrc as [_ Hsrc]. split; [apply C25_from_length, Hu|]. intros ch Hch. apply (Hsrc c0 ch Hc0 Hch). }
    assert (Hne' : tb' <> []).
    { destruct (laid_replaces Ht Hlaid H0 ltac:(lia)) as (ws & gs & _ & _ & -> & HR). destruct HR as [|l g ? ? Hg _]; [congruence|]. cbn [concat]. destruct g; [|discriminate].
      destruct l as [|cells|r|]; cbn [replaces] in Hg; try tauto; [destruct Hg as (css & _ & Hlen & _); cbn [length] in Hlen; lia|destruct Hg as (r' & D & _); discriminate D]. }
    split; [exact Hne'|split; [exact (laid_tables Ht Hlaid)|]].
    - assert (Efix : fix_all_tables u k tb width = Ret tb').
      { apply fix_all_iff. rewrite <- (app_nil_r tb), <- (app_nil_r tb'). apply br_run; [exact Hne|exact Ht|exact I|exact Hlaid|constructor]. }
      assert (Hpos : forall r, In (TableRule r) tb -> position r = Other).
      { intros r Hr. specialize (Hi _ Hr). apply in_map_iff in Hi as (m & Em & _). destruct m; try discriminate. cbn in Em. injection Em as <-. reflexivity. }
      pose proof (@C33_positions u k tb width tb' Efix ltac:(lia) Hpos) as HC. apply by_runs_one in HC; [|exact Hne|exact Ht]. destruct HC as [(Z & _)|(ws & Hcols & Hr)]; [lia|].
      exists ws. split; [|split; [split; [exact Hcols|]|]].
      + pose proof (@C30_columns u k tb width tb' Efix ltac:(lia)) as HC. apply by_runs_one in HC; [|exact Hne|exact Ht]. destruct HC as [(Z & _)|(_ & ws' & Hlen & _ & _ & Hcols')]; [lia|].
        destruct tb' as [|l' tb']; [congruence|]. inversion Hcols as [|? ? C1 _]; subst. inversion Hcols' as [|? ? C2 _]; subst.
        assert (length ws' = length ws) as Hl.
        { destruct l' as [|cells|r|]; cbn [has_columns] in C1, C2; try tauto; [apply columns_room in C1, C2; congruence|destruct C1, C2; congruence]. }
        assert (0 < shown_cols tb width); [|intros ->; cbn in Hl; lia]. unfold shown_cols. destruct (Nat.leb_spec (4 * table_cols tb + 1) width); [lia|].
        assert (4 / 4 <= (width - 1) / 4) by (apply Nat.div_le_mono; lia). change (4 / 4) with 1 in *. lia.
      + intros i r Er. destruct (Hr i r Er) as (_ & H1 & H2). split; assumption.
      + eapply Forall_impl; [|exact HP]. intros l (H1 & _). exact H1. }
  assert (S2 : all_runs is_table (fun tb => exists ws, ws <> [] /\ positioned ws tb /\ Forall (line_in_room u k) tb) (justify_blocks l1)).
  { assert (X : exists gs, justify_blocks l1 = concat gs /\ Forall2 (fun l g => if is_table l then g = [l] else g <> [] /\ Forall (fun x => is_table x = false) g) l1 gs).
    { pose proof (C34_justified l1) as J. revert J. generalize (justify_blocks l1). clear. intros l' J.
      induction J as [|l a b Hl _ (gs & -> & IH)|t t' a b Hne Ht Ha (w & _ & _ & HF) _ (gs & -> & IH)].
      - exists []. split; [reflexivity|constructor].
      - exists ([l] :: gs). split; [reflexivity|]. constructor; [|exact IH]. destruct (is_table l) eqn:E; [reflexivity|]. split; [discriminate|]. repeat constructor. exact E.
      - exists (map (fun x => [x]) t' ++ gs). split; [rewrite concat_app; f_equal; clear; induction t'; cbn; congruence|]. apply Forall2_app; [|exact IH].
        clear - HF. induction HF as [|l l' t t' (fc & -> & ->) _ IH]; cbn [map]; constructor; [|exact IH]. cbn. split; [discriminate|]. repeat constructor. }
    destruct X as (gs & -> & X). eapply runs_groups; eassumption. }
  apply C26_lines in E3 as (gs & -> & HF). eapply runs_groups; [exact S2|]. clear - HF. induction HF as [|l g ls gs H' _ IH]; constructor; [|exact IH]. clear IH. destruct l as [fc| | |]; cbn [is_table]; try exact H'.
  - destruct H' as (lm & rm & _ & [(_ & ->)|(_ & fcs & Ew & ->)]); [split; [discriminate|repeat constructor]|].
    destruct (C25_kinds _ _ _ _ Ew) as (f & o & -> & _). split; [discriminate|]. apply Forall_forall. intros x Hx. apply in_map_iff in Hx as (y & <- & _). reflexivity.
  - subst g. split; [discriminate|repeat constructor].
Qed.

(** The arms of the borders *)
Lemma borders_arms k ws tb i l j : joining (table_border_chars k) -> ws <> [] -> positioned ws tb -> nth_error tb i = Some l -> j <= length ws ->
  let t := table_border_chars k in
  let c := match l with
     | TableRule r => if j =? length ws then rule_right t (position r) else if j =? 0 then rule_left t (position r) else rule_mid t (position r)
     | _ => vertical t end in
  forall s, arm c s <-> wanted tb ws i l j s.
Proof.
  intros J Hw (Hcols & Hpos) El Hj t c s. rewrite Forall_forall in Hcols. pose proof (Hcols _ (nth_error_In _ _ El)) as Hc.
  assert (Hi : i < length tb) by (apply nth_error_Some; congruence). assert (L0 : 0 < length ws) by (destruct ws; [congruence|cbn; lia]).
  assert (V : forall c l', c = c -> arms c l' -> (arm c s <-> In s l')) by (intros; apply arms_arm; assumption).
  subst c t. destruct l as [fc|cells|r|]; cbn [has_columns] in Hc; try tauto.
  - assert (N : ~ is_rule (TableRow cells)) by (intros (r & D); discriminate D).
    rewrite (arms_arm s (jn_v J)). clear - N. destruct s; cbn [wanted In]; intuition discriminate.
  - destruct (Hpos i r El) as (P1 & P2). assert (R : is_rule (TableRule r)) by (eexists; reflexivity).
    assert (X : wanted tb ws i (TableRule r) j s <-> match s with SUp => i <> 0 | SDown => i = 0 \/ S i <> length tb | SLeft => 0 < j | SRight => j < length ws end) by (destruct s; cbn [wanted]; tauto).
    rewrite X. clear X V.
    destruct (position r) eqn:Ep; cbn [rule_left rule_mid rule_right].
    + assert (i = 0) by (apply P1; reflexivity).
      destruct (Nat.eqb_spec j (length ws)); [rewrite (arms_arm s (jn_tr J))|destruct (Nat.eqb_spec j 0); [rewrite (arms_arm s (jn_tl J))|rewrite (arms_arm s (jn_t J))]];
        destruct s; cbn [In]; intuition (discriminate || lia).
    + assert (i <> 0) by (intros Z; apply P1 in Z; discriminate Z). assert (S i <> length tb) by (intros Z; assert (Other = Bottom) by (apply P2; auto); discriminate).
      destruct (Nat.eqb_spec j (length ws)); [rewrite (arms_arm s (jn_r J))|destruct (Nat.eqb_spec j 0); [rewrite (arms_arm s (jn_l J))|rewrite (arms_arm s (jn_c J))]];
        destruct s; cbn [In]; intuition (discriminate || lia).
    + assert (i <> 0 /\ S i = length tb) as (Z1 & Z2) by (apply P2; reflexivity).
      destruct (Nat.eqb_spec j (length ws)); [rewrite (arms_arm s (jn_br J))|destruct (Nat.eqb_spec j 0); [rewrite (arms_arm s (jn_bl J))|rewrite (arms_arm s (jn_b J))]];
        destruct s; cbn [In]; intuition (discriminate || lia).
Qed.

(** In each table of a displayed text, every border of every line is at the same column, and has exactly the arms it must have, see [wanted].
    Between them, the rules are made of horizontal lines. *)
Theorem C97_table : forall u special k um text width t, additive u -> narrow_chars u k -> same_widths u special -> joining (table_border_chars k) -> 5 <= width ->
  from_text u k um text (Some width) = Ret t -> Forall (fitting_source u k width) text ->
  all_runs is_table (fun tb => exists lp ws, ws <> [] /\ forall i l wr out, nth_error tb i = Some l -> write_fmt_line special k l (Some width) wr = Ret out ->
    (forall j, j <= length ws -> exists c, at_column u (drawn out) (lp + edge ws j) c (ls_cs (table k)) /\ forall s, arm c s <-> wanted tb ws i l j s)
    /\ (is_rule l -> forall x, x < edge ws (length ws) -> (forall j, j <= length ws -> x <> edge ws j) ->
          exists c, at_column u (drawn out) (lp + x) c (ls_cs (table k)) /\ arms c [SLeft; SRight])) (txt_lines t).
Proof.
  intros u special k um text width t Hu Hn Hs J Hw E Hsrc. pose proof (text_tables um Hu Hw E Hsrc) as H.
  induction H as [|l a Hl _ IH|tb a Hne Ht Ha (ws & Hws & Hp & Hr) _ IH]; [constructor|constructor; assumption|constructor; try assumption]. clear IH Ha.
  pose proof (shared_opt_spec (ls_align (table k)) (table_line_width ws) (Some width)) as So. destruct (optional_completions (ls_align (table k)) (table_line_width ws) (Some width)) as [lp rp].
  exists lp, ws. split; [exact Hws|]. intros i l wr out El Eo. rewrite Forall_forall in Hr. specialize (Hr _ (nth_error_In _ _ El)).
  assert (Hc : has_columns ws l) by (destruct Hp as (Hp & _); rewrite Forall_forall in Hp; apply Hp; eapply nth_error_In; exact El).
  destruct (@line_borders u special k ws l (Some width) wr out Hn Hs Hr Hc Hws Eo) as (lp' & rp' & So' & B1 & B2). pose proof (@shared_unique _ _ _ _ _ _ _ So So') as <-. split.
  - intros j Hj. eexists. split; [apply B1; exact Hj|]. apply (@borders_arms k ws tb i l j J Hws Hp El Hj).
  - intros R x Hx Hx'. eexists. split; [apply B2; assumption|]. apply J.
Qed.
Print Assumptions C97_table.

Lemma runs_pair A (p : A -> bool) (P : list A -> Prop) lines n a b : all_runs p P lines -> nth_error lines n = Some a -> nth_error lines (S n) = Some b -> p a = true -> p b = true ->
  exists tb i, P tb /\ nth_error tb i = Some a /\ nth_error tb (S i) = Some b.
Proof.
  intros H. revert n. induction H as [|l r Hl _ IH|tb r Hne Ht Hr HP HR IH]; intros n Ea Eb Pa Pb; [destruct n; discriminate| |].
  - destruct n as [|n]; [cbn in Ea; congruence|]. apply (IH n); assumption.
  - destruct (Nat.lt_ge_cases (S n) (length tb)) as [L|L].
    + rewrite nth_error_app1 in Ea, Eb by lia. eauto.
    + destruct (Nat.eq_dec (S n) (length tb)) as [Z|Z].
      * rewrite nth_error_app2 in Eb by lia. replace (S n - length tb) with 0 in Eb by lia. destruct r; [discriminate|]. cbn in Eb, Hr. congruence.
      * rewrite nth_error_app2 in Ea, Eb by lia. apply (IH (n - length tb)); try assumption. replace (S (n - length tb)) with (S n - length tb) by lia. exact Eb.
Qed.
Lemma runs_one A (p : A -> bool) (P : list A -> Prop) lines a : all_runs p P lines -> In a lines -> p a = true -> exists tb i, P tb /\ nth_error tb i = Some a.
Proof.
  intros H. induction H as [|l r Hl _ IH|tb r Hne Ht Hr HP HR IH]; intros Hi Pa; [destruct Hi| |].
  - destruct Hi as [->|Hi]; [congruence|]. apply IH; assumption.
  - apply in_app_or in Hi as [Hi|Hi]; [|apply IH; assumption]. apply In_nth_error in Hi as (i & Hi). eauto.
Qed.
(** Two successive lines of a table join up: for every border there's an arm going down from the first one, and one going up from the second one *)
Theorem C97_joined : forall u special k um text width t, additive u -> narrow_chars u k -> same_widths u special -> joining (table_border_chars k) -> 5 <= width ->
  from_text u k um text (Some width) = Ret t -> Forall (fitting_source u k width) text ->
  forall n l l' wr wr' out out', nth_error (txt_lines t) n = Some l -> nth_error (txt_lines t) (S n) = Some l' -> is_table l = true -> is_table l' = true ->
  write_fmt_line special k l (Some width) wr = Ret out -> write_fmt_line special k l' (Some width) wr' = Ret out' ->
  exists lp ws, ws <> [] /\ forall j, j <= length ws -> exists c c', at_column u (drawn out) (lp + edge ws j) c (ls_cs (table k)) /\ arm c SDown
    /\ at_column u (drawn out') (lp + edge ws j) c' (ls_cs (table k)) /\ arm c' SUp.
Proof.
  intros u special k um text width t Hu Hn Hs J Hw E Hsrc n l l' wr wr' out out' El El' Tl Tl' Eo Eo'.
  destruct (@runs_pair _ _ _ _ _ _ _ (@C97_table u special k um text width t Hu Hn Hs J Hw E Hsrc) El El' Tl Tl') as (tb & i & (lp & ws & Hws & H) & Ei & Ei').
  exists lp, ws. split; [exact Hws|]. intros j Hj. destruct (H i l wr out Ei Eo) as (H1 & _). destruct (H (S i) l' wr' out' Ei' Eo') as (H2 & _).
  destruct (H1 j Hj) as (c & A1 & W1). destruct (H2 j Hj) as (c' & A2 & W2). exists c, c'. split; [exact A1|]. split; [apply W1|split; [exact A2|apply W2]]; cbn [wanted].
  - right. right. assert (S i < length tb) by (apply nth_error_Some; congruence). lia.
  - right. lia.
Qed.
Print Assumptions C97_joined.
(** A rule is a continuous line from the first border to the last one *)
Theorem C97_rule : forall u special k um text width t, additive u -> narrow_chars u k -> same_widths u special -> joining (table_border_chars k) -> 5 <= width ->
  from_text u k um text (Some width) = Ret t -> Forall (fitting_source u k width) text ->
  forall r wr out, In (TableRule r) (txt_lines t) -> write_fmt_line special k (TableRule r) (Some width) wr = Ret out ->
  exists lp ws, ws <> [] /\ forall x, x < edge ws (length ws) -> exists c c', at_column u (drawn out) (lp + x) c (ls_cs (table k)) /\ arm c SRight
    /\ at_column u (drawn out) (lp + S x) c' (ls_cs (table k)) /\ arm c' SLeft.
Proof.
  intros u special k um text width t Hu Hn Hs J Hw E Hsrc r wr out Hin Eo.
  destruct (@runs_one _ _ _ _ _ (@C97_table u special k um text width t Hu Hn Hs J Hw E Hsrc) Hin eq_refl) as (tb & i & (lp & ws & Hws & H) & Ei).
  exists lp, ws. split; [exact Hws|]. destruct (H i _ wr out Ei Eo) as (H1 & H2). assert (R : is_rule (TableRule r)) by (eexists; reflexivity). specialize (H2 R).
  assert (D : forall x, (exists j, j <= length ws /\ x = edge ws j) \/ forall j, j <= length ws -> x <> edge ws j).
  { intros x. assert (X : forall n, (exists j, j <= n /\ x = edge ws j) \/ forall j, j <= n -> x <> edge ws j); [|apply X].
    induction n as [|n [(j & Hj & ->)|IH]]; [destruct (Nat.eq_dec x (edge ws 0)) as [->|N]; [left; exists 0; auto|right; intros j Hj; replace j with 0 by lia; exact N]|left; exists j; split; [lia|reflexivity]|].
    destruct (Nat.eq_dec x (edge ws (S n))) as [->|N]; [left; exists (S n); auto|right]. intros j Hj. destruct (Nat.eq_dec j (S n)) as [->|]; [exact N|]. apply IH. lia. }
  assert (M : forall i j, i < j -> j <= length ws -> edge ws i < edge ws j).
  { clear. intros i j Hij Hj. unfold edge. assert (sum (firstn i ws) <= sum (firstn j ws)); [|lia]. revert i j Hij Hj. induction ws as [|w ws IH]; intros [|i] [|j] Hij Hj; cbn [firstn sum length] in *; try lia. specialize (IH i j). lia. }
  assert (A : forall x, x < edge ws (length ws) -> exists c, at_column u (drawn out) (lp + x) c (ls_cs (table k)) /\ arm c SRight).
  { intros x Hx. destruct (D x) as [(j & Hj & ->)|Hx'].
    - destruct (H1 j Hj) as (c & C1 & C2). exists c. split; [exact C1|]. apply C2. split; [exact R|]. destruct (Nat.eq_dec j (length ws)) as [->|]; lia.
    - destruct (H2 x Hx Hx') as (c & C1 & C2). exists c. split; [exact C1|]. apply (arms_arm _ C2). cbn. tauto. }
  assert (B : forall x, 0 < x <= edge ws (length ws) -> exists c, at_column u (drawn out) (lp + x) c (ls_cs (table k)) /\ arm c SLeft).
  { intros x Hx. destruct (D x) as [(j & Hj & ->)|Hx'].
    - destruct (H1 j Hj) as (c & C1 & C2). exists c. split; [exact C1|]. apply C2. split; [exact R|]. destruct j; [cbn in Hx; lia|lia].
    - destruct (H2 x) as (c & C1 & C2); [|exact Hx'|exists c; split; [exact C1|]; apply (arms_arm _ C2); cbn; tauto]. specialize (Hx' (length ws) ltac:(lia)). lia. }
  intros x Hx. destruct (A x Hx) as (c & A1 & A2). destruct (B (S x) ltac:(lia)) as (c' & B1 & B2). exists c, c'. auto.
Qed.
Print Assumptions C97_rule.

(** A table of 2 columns in a text *)
Example C97_example : Forall (fitting_source demo skin_default 14) small_text /\ joining (table_border_chars skin_default)
  /\ exists t, from_text demo skin_default 1000 small_text (Some 14) = Ret t
  /\ map (fun l => match write_fmt_line no_special skin_default l (Some 14) false with Ret o => map fst (drawn o) | _ => [] end) (filter (fun l => match l with TableRule _ => true | _ => false end) (txt_lines t)) 
    = [[9484; 9472; 9472; 9472; 9472; 9472; 9472; 9516; 9472; 9472; 9472; 9472; 9472; 9488]%N].
Proof.
  split; [apply C69_printed_example|]. split; [pose proof C97_lines as (H & _); inversion H; assumption|]. eexists. split; [vm_compute; reflexivity|]. vm_compute. reflexivity.
Qed.
(** The rectangle of [C50_example] has a closed border; one of the same size with the half-width border *)
Example C97_rect_example : joining_rect (r_border (demo_rect 4 3)) /\ width_of (demo_rect 4 3) = 4 /\ height_of (demo_rect 4 3) = 3
  /\ let r := set_border_style (demo_rect 4 3) BORDER_STYLE_HALF_WIDTH_OUTSIDE in
     thin_border demo (r_border r) /\ match rect_draw r with Ret out => map s_char (screen demo 0 0 out) | _ => [] end
     = [9627; 9600; 9600; 9628; 9612; 32; 32; 9616; 9625; 9604; 9604; 9631]%N.
Proof.
  split; [pose proof C97_lines as (_ & H & _); inversion H as [|? ? _ H']; inversion H'; assumption|]. split; [reflexivity|]. split; [reflexivity|].
  split; [split; [reflexivity|repeat constructor]|]. vm_compute. reflexivity.
Qed.
