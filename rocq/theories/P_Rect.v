(** * C50 Drawing a rectangle touches exactly its cells *)
From Coq Require Import FinFun.
From Verif Require Import Base L_Base Demo M_Style M_Fit S_Fit L_Fit M_View S_View L_View M_Input S_Input L_Input L_Input2 M_Rect S_Rect.
Set Implicit Arguments.
Open Scope nat_scope.

Definition b_row (cs : CStyle) (w : nat) (a b c : char) : str := a :: repeat b (w - 2) ++ [c].
Lemma border_row_ok cs w a b c : Forall text_cmd (border_row cs w a b c) /\ out_text (border_row cs w a b c) = b_row cs (N.to_nat w) a b c
  /\ forall u x y, screen u x y (border_row cs w a b c) = put u x y (Some cs) (b_row cs (N.to_nat w) a b c).
Proof.
  assert (E : border_row cs w a b c = map (fun c => Styled cs [c]) (b_row cs (N.to_nat w) a b c)).
  { unfold border_row, b_row, cs_queue. cbn [map app]. f_equal. rewrite map_app. f_equal. destruct (N.ltb_spec 2 w).
    - replace (N.to_nat (w - 2)) with (N.to_nat w - 2) by lia. induction (N.to_nat w - 2) as [|n IH]; [reflexivity|]. cbn. rewrite IH. reflexivity.
    - replace (N.to_nat w - 2) with 0 by lia. reflexivity. }
  rewrite E. generalize (b_row cs (N.to_nat w) a b c). intros l. split; [|split].
  - induction l; constructor; [right; do 2 eexists; reflexivity|assumption].
  - unfold out_text. induction l; [reflexivity|]. cbn. rewrite IHl. reflexivity.
  - intros u. induction l as [|d l IH]; intros x y; [reflexivity|]. cbn [map screen put app]. rewrite IH. unfold sumw. cbn. rewrite Nat.add_0_r. reflexivity.
Qed.
Lemma screen_styled_put u cs y : forall l, Forall (fun c => exists s, c = Styled cs s) l -> forall x, screen u x y l = put u x y (Some cs) (out_text l).
Proof.
  assert (P : forall s x t, put u x y (Some cs) (s ++ t) = put u x y (Some cs) s ++ put u (x + sumw (chw u) s) y (Some cs) t).
  { induction s as [|c s IH]; intros x t; [cbn; rewrite Nat.add_0_r; reflexivity|]. cbn [app put]. rewrite IH, sumw_cons, Nat.add_assoc. reflexivity. }
  induction 1 as [|c l (s & ->) _ IH]; intros x; [reflexivity|]. cbn [screen]. unfold out_text. cbn [flat_map cmd_text]. rewrite P, IH. reflexivity.
Qed.

(** What a middle row writes *)
Definition mid_spots (r : Rect) (y : nat) : list spot :=
  mkSpot (left_of r) y (Some (r_colors r)) (b_left (r_border r))
  :: (if r_fill r then map (fun x => mkSpot x y (Some (r_colors r)) 32%N) (seq (S (left_of r)) (width_of r - 2)) else [])
  ++ [mkSpot (left_of r + width_of r - 1) y (Some (r_colors r)) (b_right (r_border r))].
Lemma put_ones u y st s : Forall (fun c => chw u c = 1) s -> forall x, put u x y st s = map (fun p => mkSpot (fst p) y st (snd p)) (combine (seq x (length s)) s).
Proof. induction 1 as [|c s Hc _ IH]; intros x; [reflexivity|]. cbn [put length seq combine map fst snd]. rewrite IH, Hc, Nat.add_1_r. reflexivity. Qed.
Lemma sumw_ones u s : Forall (fun c => chw u c = 1) s -> sumw (chw u) s = length s.
Proof. induction 1 as [|c s Hc _ IH]; [reflexivity|]. rewrite sumw_cons, IH, Hc. reflexivity. Qed.
Lemma rect_rows_spec u r : thin_border u (r_border r) -> on_screen (r_area r) -> (2 <= a_width (r_area r))%N ->
  forall n fuel y, (N.to_nat y + n = top_of r + height_of r - 1) -> (1 <= a_height (r_area r))%N -> n <= fuel ->
  exists out, rect_rows r fuel y = Ret out /\ forall x0 y0 rest, (exists x1 y1 rest', rest = MoveTo x1 y1 :: rest') ->
    screen u x0 y0 (out ++ rest) = flat_map (mid_spots r) (seq (N.to_nat y) n) ++ screen u 0 0 rest.
Proof.
  intros [Hsp Hb] [Hs1 Hs2] Hw. induction n as [|n IH]; intros fuel y Hy Hh Hf.
  - unfold left_of, top_of, width_of, height_of in *. exists []. split.
    + destruct fuel; cbn [rect_rows]; unfold add16 at 1; rewrite (proj2 (N.ltb_lt _ _)) by (unfold U16; lia); rewrite bind_ret;
        unfold sub16 at 1; rewrite (proj2 (N.leb_le _ _)) by lia; rewrite bind_ret; rewrite (proj2 (N.ltb_ge _ _)) by lia; reflexivity.
    + intros x0 y0 rest (x1 & y1 & rest' & ->). reflexivity.
  - destruct fuel as [|fuel]; [lia|]. unfold top_of, height_of in Hy. destruct (IH fuel (y + 1)%N) as (o & Eo & So); [unfold top_of, height_of; lia|exact Hh|lia|].
    cbn [rect_rows]. unfold add16 at 1. rewrite (proj2 (N.ltb_lt _ _)) by (unfold U16; lia). rewrite bind_ret. unfold sub16 at 1. rewrite (proj2 (N.leb_le _ _)) by lia. rewrite bind_ret.
    rewrite (proj2 (N.ltb_lt _ _)) by lia. unfold add16 at 2. rewrite (proj2 (N.ltb_lt (y + 1) _)) by (unfold U16; lia).
    replace (N.to_nat (y + 1)) with (S (N.to_nat y)) in So by lia.
    assert (Hl : chw u (b_left (r_border r)) = 1) by (rewrite Forall_forall in Hb; apply Hb; unfold border_chars; cbn; tauto).
    unfold rect_rows. fold rect_rows. destruct (r_fill r) eqn:Efill.
    + assert (Hm : exists m, (if (2 <? a_width (r_area r))%N then filling_queue_styled SPACE_FILLING (r_colors r) (N.to_nat (a_width (r_area r)) - 2) else Ret []) = Ret m
        /\ out_text m = repeat 32%N (width_of r - 2) /\ Forall (fun c => exists s, c = Styled (r_colors r) s) m).
      { destruct (N.ltb_spec 2 (a_width (r_area r))); [|exists []; split; [reflexivity|]; unfold width_of; replace (N.to_nat (a_width (r_area r)) - 2) with 0 by lia; split; [reflexivity|constructor]].
        destruct (filling_styled_spec c_space (r_colors r) (N.to_nat (a_width (r_area r)) - 2)) as (m & Em & E1 & E2). exists m. split; [exact Em|]. split; [exact E1|rewrite Forall_forall; exact E2]. }
      destruct Hm as (m & -> & Em & Fm). rewrite !bind_ret, Eo, bind_ret. eexists. split; [reflexivity|]. intros x0 y0 rest Hr.
      cbn [app screen cs_queue seq flat_map]. unfold mid_spots at 1. rewrite Efill. cbn [app put]. apply f_equal. rewrite <- !app_assoc.
      assert (Tm : Forall text_cmd m) by (eapply Forall_impl; [|exact Fm]; intros c (s & ->); right; do 2 eexists; reflexivity).
      rewrite (screen_app u (N.to_nat y) Tm), (screen_styled_put u (N.to_nat y) Fm), Em.
      assert (F32 : Forall (fun c => chw u c = 1) (repeat 32%N (width_of r - 2))) by (clear - Hsp; induction (width_of r - 2); constructor; assumption).
      assert (S1 : sumw (chw u) [b_left (r_border r)] = 1) by (rewrite sumw_cons, Hl; reflexivity).
      rewrite (@sumw_ones u _ F32), (@put_ones u (N.to_nat y) _ _ F32), !repeat_length, S1.
      f_equal; [unfold left_of; rewrite Nat.add_1_r; generalize (S (N.to_nat (a_left (r_area r)))); generalize (width_of r - 2);
        intros k; induction k as [|k IHk]; intros z; [reflexivity|]; cbn; rewrite IHk; reflexivity|].
      cbn [app screen cs_queue put]. f_equal; [f_equal; unfold left_of, width_of; lia|]. apply So, Hr.
    + unfold add16 at 1. rewrite (proj2 (N.ltb_lt _ _)) by (unfold U16; lia). rewrite !bind_ret. unfold sub16 at 1. rewrite (proj2 (N.leb_le _ _)) by lia. rewrite !bind_ret, Eo, bind_ret.
      eexists. split; [reflexivity|]. intros x0 y0 rest Hr. cbn [app screen cs_queue seq flat_map]. unfold mid_spots at 1. rewrite Efill. cbn [app put].
      apply f_equal. f_equal; [f_equal; unfold left_of, width_of; lia|]. apply So, Hr.
Qed.

Lemma put_ones_In u y st s x sp : Forall (fun c => chw u c = 1) s ->
  (In sp (put u x y st s) <-> exists i c, nth_error s i = Some c /\ sp = mkSpot (x + i) y st c).
Proof.
  intros F. revert x. induction F as [|c s Hc _ IH]; intros x; [split; [intros []|intros ([|] & c & E & _); discriminate]|].
  cbn [put In]. rewrite IH, Hc. split.
  - intros [<-|(i & d & E & ->)]; [exists 0, c; rewrite Nat.add_0_r; auto|]. exists (S i), d. split; [exact E|]. f_equal. lia.
  - intros ([|i] & d & E & ->); cbn in E; [injection E as ->; rewrite Nat.add_0_r; auto|]. right. exists i, d. split; [exact E|]. f_equal. lia.
Qed.
Lemma b_row_nth cs w a b c i d : 2 <= w -> (nth_error (b_row cs w a b c) i = Some d <->
  (i = 0 /\ d = a) \/ (0 < i < w - 1 /\ d = b) \/ (i = w - 1 /\ d = c)).
Proof.
  intros Hw. unfold b_row. destruct i as [|i]; [cbn; split; [intros E; injection E; auto|intros [[_ ->]|[[? _]|[? _]]]; try lia; reflexivity]|].
  cbn [nth_error]. destruct (Nat.lt_ge_cases i (w - 2)) as [L|L].
  - rewrite nth_error_app1 by (rewrite repeat_length; exact L). rewrite (nth_error_nth' _ b) by (rewrite repeat_length; exact L). rewrite nth_repeat.
    split; [intros E; injection E as <-; right; left; split; [lia|reflexivity]|intros [[? _]|[[_ ->]|[? _]]]; try lia; reflexivity].
  - rewrite nth_error_app2 by (rewrite repeat_length; exact L). rewrite repeat_length. destruct (i - (w - 2)) as [|k] eqn:Ek; cbn.
    + split; [intros E; injection E as <-; right; right; split; [lia|reflexivity]|intros [[? _]|[[? _]|[_ ->]]]; try lia; reflexivity].
    + split; [destruct k; discriminate|]. intros [[? _]|[[? _]|[? _]]]; lia.
Qed.
Lemma b_row_ones u r w : thin_border u (r_border r) ->
  Forall (fun c => chw u c = 1) (b_row (r_colors r) w (b_top_left (r_border r)) (b_top (r_border r)) (b_top_right (r_border r)))
  /\ Forall (fun c => chw u c = 1) (b_row (r_colors r) w (b_bottom_left (r_border r)) (b_bottom (r_border r)) (b_bottom_right (r_border r))).
Proof.
  intros [_ F]. rewrite Forall_forall in F.
  assert (R : forall b n, chw u b = 1 -> Forall (fun c => chw u c = 1) (repeat b n)) by (intros b n Hb; induction n; constructor; auto).
  split; (constructor; [apply F; unfold border_chars; cbn; tauto|apply Forall_app; split; [apply R, F; unfold border_chars; cbn; tauto|repeat constructor; apply F; unfold border_chars; cbn; tauto]]).
Qed.

(** All that is written: the first row, the middle ones, the last one. The height may be 1 there. *)
Lemma rect_screen u r : thin_border u (r_border r) -> on_screen (r_area r) -> (2 <= a_width (r_area r))%N -> (1 <= a_height (r_area r))%N ->
  exists out, rect_draw r = Ret out /\ forall x0 y0, screen u x0 y0 out =
    put u (left_of r) (top_of r) (Some (r_colors r)) (b_row (r_colors r) (width_of r) (b_top_left (r_border r)) (b_top (r_border r)) (b_top_right (r_border r)))
    ++ flat_map (mid_spots r) (seq (S (top_of r)) (height_of r - 2))
    ++ put u (left_of r) (top_of r + height_of r - 1) (Some (r_colors r)) (b_row (r_colors r) (width_of r) (b_bottom_left (r_border r)) (b_bottom (r_border r)) (b_bottom_right (r_border r))).
Proof.
  intros Ht Hs Hw Hh. pose proof Hs as [Hs1 Hs2].
  assert (E1 : exists o, rect_rows r (N.to_nat (a_height (r_area r))) (a_top (r_area r) + 1)%N = Ret o /\ forall x0 y0 rest, (exists x1 y1 rest', rest = MoveTo x1 y1 :: rest') ->
    screen u x0 y0 (o ++ rest) = flat_map (mid_spots r) (seq (S (top_of r)) (height_of r - 2)) ++ screen u 0 0 rest).
  { destruct (N.leb_spec 2 (a_height (r_area r))) as [L|L].
    - destruct (@rect_rows_spec u r Ht Hs Hw (height_of r - 2) (N.to_nat (a_height (r_area r))) (a_top (r_area r) + 1)%N) as (o & Eo & So); [unfold top_of, height_of; lia|exact Hh|unfold height_of; lia|].
      exists o. split; [exact Eo|]. replace (N.to_nat (a_top (r_area r) + 1)) with (S (top_of r)) in So by (unfold top_of; lia). exact So.
    - exists []. replace (height_of r - 2) with 0 by (unfold height_of; lia). split; [|intros x0 y0 rest (x1 & y1 & rest' & ->); reflexivity].
      replace (N.to_nat (a_height (r_area r))) with 1 by lia. cbn [rect_rows]. unfold add16 at 1. rewrite (proj2 (N.ltb_lt _ _)) by (unfold U16; lia). rewrite bind_ret.
      unfold sub16 at 1. rewrite (proj2 (N.leb_le _ _)) by lia. rewrite bind_ret. rewrite (proj2 (N.ltb_ge _ _)) by lia. reflexivity. }
  destruct E1 as (o & Eo & So). unfold rect_draw. unfold add16 at 1. rewrite (proj2 (N.ltb_lt _ _)) by (unfold U16; lia). rewrite bind_ret, Eo, bind_ret.
  unfold bottom, add16 at 1. rewrite (proj2 (N.ltb_lt _ _)) by (unfold U16; lia). rewrite bind_ret. unfold sub16 at 1. rewrite (proj2 (N.leb_le _ _)) by lia. rewrite bind_ret.
  eexists. split; [reflexivity|]. intros x0 y0. cbn [screen].
  destruct (border_row_ok (r_colors r) (a_width (r_area r)) (b_top_left (r_border r)) (b_top (r_border r)) (b_top_right (r_border r))) as (F1 & _ & P1).
  destruct (border_row_ok (r_colors r) (a_width (r_area r)) (b_bottom_left (r_border r)) (b_bottom (r_border r)) (b_bottom_right (r_border r))) as (_ & _ & P2).
  rewrite (screen_app u _ F1), P1. f_equal. rewrite So by (do 3 eexists; reflexivity). f_equal. cbn [screen]. rewrite P2. f_equal. unfold top_of, height_of. lia.
Qed.

(** Drawing a rectangle of at least 2x2 whose right and bottom can be computed writes each cell at most once; the cells written are exactly
    the ones of the border, and the inside ones when it's filled, each one with the right char and the colors of the rectangle. *)
Theorem C50_cells : forall u r x0 y0, thin_border u (r_border r) -> on_screen (r_area r) -> 2 <= width_of r -> 2 <= height_of r ->
  exists out, rect_draw r = Ret out
  /\ (forall x y st c, In (mkSpot x y st c) (screen u x0 y0 out) <-> cell_of r x y c /\ st = Some (r_colors r))
  /\ NoDup (map (fun s => (s_x s, s_y s)) (screen u x0 y0 out)).
Proof.
  intros u r x0 y0 Ht Hs Hw Hh. destruct (@rect_screen u r Ht Hs) as (out & E & Sc); [unfold width_of in Hw; lia|unfold height_of in Hh; lia|].
  exists out. split; [exact E|]. rewrite Sc. destruct (@b_row_ones u r (width_of r) Ht) as [O1 O2]. split.
  - intros x y st c. rewrite !in_app_iff, in_flat_map. rewrite (@put_ones_In u _ _ _ _ _ O1), (@put_ones_In u _ _ _ _ _ O2). split.
    + intros [(i & d & En & Ex)|[(yy & Hy & Hi)|(i & d & En & Ex)]].
      * injection Ex as -> -> -> ->. split; [|reflexivity]. apply b_row_nth in En; [|exact Hw]. destruct En as [[-> ->]|[[L ->]|[-> ->]]].
        -- rewrite Nat.add_0_r. constructor.
        -- constructor. lia.
        -- rewrite Nat.add_sub_assoc by lia. constructor.
      * apply in_seq in Hy. unfold mid_spots in Hi. cbn [In] in Hi. rewrite in_app_iff in Hi. destruct Hi as [Ex|[Hi|[Ex|[]]]].
        -- injection Ex as <- <- <- <-. split; [|reflexivity]. constructor. lia.
        -- destruct (r_fill r) eqn:Ef; [|destruct Hi]. apply in_map_iff in Hi as (xx & Ex & Hx). apply in_seq in Hx. injection Ex as <- <- <- <-. split; [|reflexivity].
           constructor; [exact Ef|lia|lia].
        -- injection Ex as <- <- <- <-. split; [|reflexivity]. constructor. lia.
      * injection Ex as -> -> -> ->. split; [|reflexivity]. apply b_row_nth in En; [|exact Hw]. destruct En as [[-> ->]|[[L ->]|[-> ->]]].
        -- rewrite Nat.add_0_r. constructor.
        -- constructor. lia.
        -- rewrite Nat.add_sub_assoc by lia. constructor.
    + intros [Hc ->]. destruct Hc as [| | | |x Hx|x Hx|y Hy|y Hy|x y Hf Hx Hy].
      * left. exists 0, (b_top_left (r_border r)). rewrite Nat.add_0_r. split; [apply b_row_nth; auto|reflexivity].
      * left. exists (width_of r - 1), (b_top_right (r_border r)). rewrite Nat.add_sub_assoc by lia. split; [apply b_row_nth; auto|reflexivity].
      * right. right. exists 0, (b_bottom_left (r_border r)). rewrite Nat.add_0_r. split; [apply b_row_nth; auto|reflexivity].
      * right. right. exists (width_of r - 1), (b_bottom_right (r_border r)). rewrite Nat.add_sub_assoc by lia. split; [apply b_row_nth; auto|reflexivity].
      * left. exists (x - left_of r), (b_top (r_border r)). split; [apply b_row_nth; [exact Hw|]; right; left; split; [lia|reflexivity]|f_equal; lia].
      * right. right. exists (x - left_of r), (b_bottom (r_border r)). split; [apply b_row_nth; [exact Hw|]; right; left; split; [lia|reflexivity]|f_equal; lia].
      * right. left. exists y. split; [apply in_seq; lia|]. left. reflexivity.
      * right. left. exists y. split; [apply in_seq; lia|]. right. apply in_or_app. right. left. reflexivity.
      * right. left. exists y. split; [apply in_seq; lia|]. right. rewrite Hf. apply in_or_app. left. apply in_map_iff. exists x. split; [reflexivity|apply in_seq; lia].
  - assert (ND : forall s y st, Forall (fun c => chw u c = 1) s -> forall x, NoDup (map (fun s => (s_x s, s_y s)) (put u x y st s)) /\ forall p, In p (map (fun s => (s_x s, s_y s)) (put u x y st s)) -> snd p = y /\ x <= fst p).
    { clear. induction s as [|c s IH]; intros y st F x; [split; [constructor|intros p []]|]. inversion F as [|? ? Hc F']; subst. destruct (IH y st F' (x + 1)) as [I1 I2].
      cbn [put map]. rewrite Hc. cbn [s_x s_y]. split.
      - constructor; [|exact I1]. intros Hi. apply I2 in Hi. cbn in Hi. lia.
      - intros p [<-|Hi]; [cbn; lia|]. apply I2 in Hi. lia. }
    assert (NA : forall A (a b : list A), NoDup a -> NoDup b -> (forall x, In x a -> ~ In x b) -> NoDup (a ++ b)).
    { clear. induction a as [|x a IH]; intros b Ha Hb H; [exact Hb|]. inversion Ha; subst. cbn. constructor; [rewrite in_app_iff; intros [Hi|Hi]; [auto|apply (H x); cbn; auto]|]. apply IH; auto. intros y Hy. apply H. right. exact Hy. }
    assert (NM : forall n y, NoDup (map (fun s => (s_x s, s_y s)) (flat_map (mid_spots r) (seq y n))) /\ forall p, In p (map (fun s => (s_x s, s_y s)) (flat_map (mid_spots r) (seq y n))) -> y <= snd p < y + n).
    { induction n as [|n IH]; intros y; [split; [constructor|intros p []]|]. destruct (IH (S y)) as [I1 I2]. cbn [seq flat_map]. rewrite map_app.
      assert (Hin : forall p, In p (map (fun s => (s_x s, s_y s)) (mid_spots r y)) -> snd p = y).
      { intros p Hi. apply in_map_iff in Hi as (s & <- & Hi). unfold mid_spots in Hi. cbn [In] in Hi. rewrite in_app_iff in Hi. destruct Hi as [<-|[Hi|[<-|[]]]]; [reflexivity| |reflexivity].
        destruct (r_fill r); [|destruct Hi]. apply in_map_iff in Hi as (x & <- & _). reflexivity. }
      split.
      - apply NA; [|exact I1|intros p Hp Hq; apply Hin in Hp; apply I2 in Hq; lia]. unfold mid_spots. cbn [map s_x s_y]. rewrite map_app. cbn [map s_x s_y].
        constructor.
        + rewrite in_app_iff. intros [Hi|[Hi|[]]]; [|injection Hi as Hi; lia]. destruct (r_fill r); [|destruct Hi]. rewrite map_map in Hi. cbn [s_x s_y] in Hi.
          apply in_map_iff in Hi as (x & Ex & Hx). apply in_seq in Hx. injection Ex as ->. lia.
        + apply NA; [|repeat constructor; intros []|].
          * destruct (r_fill r); [|constructor]. rewrite map_map. cbn [s_x s_y]. apply FinFun.Injective_map_NoDup; [intros a b Eab; injection Eab; auto|apply seq_NoDup].
          * intros p Hi [<-|[]]. destruct (r_fill r); [|destruct Hi]. rewrite map_map in Hi. cbn [s_x s_y] in Hi. apply in_map_iff in Hi as (x & Ex & Hx). apply in_seq in Hx. injection Ex as ->. lia.
      - intros p Hi. apply in_app_or in Hi as [Hi|Hi]; [apply Hin in Hi; lia|]. apply I2 in Hi. lia. }
    destruct (ND _ (top_of r) (Some (r_colors r)) O1 (left_of r)) as [N1 M1]. destruct (ND _ (top_of r + height_of r - 1) (Some (r_colors r)) O2 (left_of r)) as [N2 M2].
    destruct (NM (height_of r - 2) (S (top_of r))) as [N3 M3]. rewrite !map_app. apply NA; [exact N1| |].
    + apply NA; [exact N3|exact N2|]. intros p Hp Hq. apply M3 in Hp. apply M2 in Hq. lia.
    + intros p Hp Hq. apply M1 in Hp. apply in_app_or in Hq as [Hq|Hq]; [apply M3 in Hq|apply M2 in Hq]; lia.
Qed.
Print Assumptions C50_cells.
(** The cells of a rectangle of at least 2x2 are in its area; there's exactly one char for each cell of the border, and for each cell when it's filled *)
Theorem C50_area : forall r, 2 <= width_of r -> 2 <= height_of r ->
  (forall x y c, cell_of r x y c -> in_rect r x y)
  /\ (forall x y c c', cell_of r x y c -> cell_of r x y c' -> c = c')
  /\ (forall x y, in_rect r x y ->
        x = left_of r \/ x = left_of r + width_of r - 1 \/ y = top_of r \/ y = top_of r + height_of r - 1 \/ r_fill r = true -> exists c, cell_of r x y c)
  /\ (forall x y c, cell_of r x y c -> r_fill r = false -> x = left_of r \/ x = left_of r + width_of r - 1 \/ y = top_of r \/ y = top_of r + height_of r - 1).
Proof.
  intros r Hw Hh. split; [|split; [|split]].
  - intros x y c H. unfold in_rect. destruct H; lia.
  - intros x y c c' H H'. destruct H; inversion H'; first [reflexivity | exfalso; lia].
  - intros x y [Hx Hy] H.
    assert (x = left_of r \/ left_of r < x < left_of r + width_of r - 1 \/ x = left_of r + width_of r - 1) as [->|[Lx| ->]] by lia;
    assert (y = top_of r \/ top_of r < y < top_of r + height_of r - 1 \/ y = top_of r + height_of r - 1) as [->|[Ly| ->]] by lia; eexists; try (constructor; lia); try (constructor; fail).
  - intros x y c H Hf. destruct H; try lia.
Qed.
Print Assumptions C50_area.
Lemma rect_rows_ret r : let a := r_area r in (1 <= a_top a + a_height a < U16)%N -> r_fill r = true \/ (1 <= a_left a + a_width a < U16)%N ->
  forall fuel y, N.to_nat (a_top a + a_height a - 1 - y) <= fuel -> exists o, rect_rows r fuel y = Ret o.
Proof.
  intros a H1 H2. induction fuel as [|fuel IH]; intros y Hf; cbn [rect_rows]; fold a; unfold add16 at 1; rewrite (proj2 (N.ltb_lt _ _)) by lia; rewrite bind_ret;
    unfold sub16 at 1; rewrite (proj2 (N.leb_le _ _)) by lia; rewrite bind_ret.
  - rewrite (proj2 (N.ltb_ge _ _)) by lia. eexists; reflexivity.
  - destruct (N.ltb_spec y (a_top a + a_height a - 1)) as [L|L]; [|eexists; reflexivity].
    assert (Hm : exists m, (if r_fill r then if (2 <? a_width a)%N then filling_queue_styled SPACE_FILLING (r_colors r) (N.to_nat (a_width a) - 2) else Ret []
                            else x <- add16 (a_left a) (a_width a);; x0 <- sub16 x 1;; Ret [MoveTo x0 y]) = Ret m).
    { destruct (r_fill r).
      - destruct (2 <? a_width a)%N; [|eexists; reflexivity]. destruct (filling_styled_spec c_space (r_colors r) (N.to_nat (a_width a) - 2)) as (m & Em & _). eexists; exact Em.
      - destruct H2 as [H2|H2]; [discriminate|]. unfold add16. rewrite (proj2 (N.ltb_lt _ _)) by lia. rewrite bind_ret. unfold sub16. rewrite (proj2 (N.leb_le _ _)) by lia. eexists; reflexivity. }
    destruct Hm as (m & ->). rewrite bind_ret. unfold add16 at 1. rewrite (proj2 (N.ltb_lt _ _)) by lia. rewrite bind_ret.
    destruct (IH (y + 1)%N) as (o & ->); [lia|]. eexists; reflexivity.
Qed.
(** Whatever the area, drawing ends; it panics exactly when a coordinate can't be computed *)
Theorem C50_panics : forall r, let a := r_area r in
  rect_draw r <> OutOfFuel
  /\ (rect_draw r = Panic <->
      (65536 <= a_top a + 1 \/ 65536 <= a_top a + a_height a \/ a_top a + a_height a = 0
      \/ (3 <= a_height a /\ r_fill r = false /\ (65536 <= a_left a + a_width a \/ a_left a + a_width a = 0)))%N).
Proof.
  intros r a. unfold rect_draw. fold a. unfold add16 at 1 2. destruct (N.ltb_spec (a_top a + 1) U16) as [L1|L1]; unfold U16 in L1;
    [rewrite !bind_ret|cbn [bind]; split; [discriminate|split; [lia|reflexivity]]].
  assert (R : (65536 <= a_top a + a_height a \/ a_top a + a_height a = 0 \/ (3 <= a_height a /\ r_fill r = false /\ (65536 <= a_left a + a_width a \/ a_left a + a_width a = 0)))%N
     -> rect_rows r (N.to_nat (a_height a)) (a_top a + 1)%N = Panic).
  { intros H. destruct (N.to_nat (a_height a)) as [|fuel] eqn:Ef; cbn [rect_rows]; fold a; unfold add16 at 1; (destruct (N.ltb_spec (a_top a + a_height a) U16) as [L2|L2]; [|reflexivity]);
      rewrite bind_ret; unfold sub16 at 1; (destruct (N.leb_spec 1 (a_top a + a_height a)) as [L3|L3]; [|reflexivity]); rewrite bind_ret; unfold U16 in L2; [lia|].
    destruct H as [H|[H|(H1 & H2 & H3)]]; [lia|lia|]. rewrite (proj2 (N.ltb_lt _ _)) by lia. rewrite H2. unfold add16 at 1. destruct (N.ltb_spec (a_left a + a_width a) U16) as [L4|L4]; [|reflexivity].
    rewrite bind_ret. unfold U16 in L4. unfold sub16 at 1. rewrite (proj2 (N.leb_gt _ _)) by lia. reflexivity. }
  assert (D : (65536 <= a_top a + a_height a \/ a_top a + a_height a = 0 \/ (3 <= a_height a /\ r_fill r = false /\ (65536 <= a_left a + a_width a \/ a_left a + a_width a = 0)))%N
     \/ (1 <= a_top a + a_height a < 65536 /\ (a_height a <= 2 \/ r_fill r = true \/ 1 <= a_left a + a_width a < 65536))%N) by (destruct (r_fill r); lia).
  destruct D as [D|(D1 & D2)].
  - rewrite (R D). cbn [bind]. split; [discriminate|]. split; [intros _; right; exact D|reflexivity].
  - assert (exists o, rect_rows r (N.to_nat (a_height a)) (a_top a + 1)%N = Ret o) as (o & ->).
    { destruct D2 as [D2|D2]; [|apply rect_rows_ret; fold a; [unfold U16; lia|exact D2|lia]].
      exists []. destruct (N.to_nat (a_height a)) as [|fuel]; cbn [rect_rows]; fold a; unfold add16 at 1; rewrite (proj2 (N.ltb_lt _ _)) by (unfold U16; lia); rewrite bind_ret;
        unfold sub16 at 1; rewrite (proj2 (N.leb_le _ _)) by lia; rewrite bind_ret; rewrite (proj2 (N.ltb_ge _ _)) by lia; reflexivity. }
    rewrite bind_ret. unfold bottom, add16. rewrite (proj2 (N.ltb_lt _ _)) by (unfold U16; lia). rewrite bind_ret. unfold sub16. rewrite (proj2 (N.leb_le _ _)) by lia. rewrite bind_ret.
    split; [discriminate|]. split; [discriminate|]. intros H. destruct (r_fill r); try lia.
Qed.
Print Assumptions C50_panics.
(** A rectangle of one line is a line with its two last corners *)
Theorem C50_line : forall u r x0 y0, thin_border u (r_border r) -> on_screen (r_area r) -> 2 <= width_of r -> height_of r = 1 ->
  exists out, rect_draw r = Ret out /\ Forall (fun s => in_rect r (s_x s) (s_y s)) (screen u x0 y0 out).
Proof.
  intros u r x0 y0 Ht Hs Hw Hh. destruct (@rect_screen u r Ht Hs) as (out & E & Sc); [unfold width_of in Hw; lia|unfold height_of in Hh; lia|].
  exists out. split; [exact E|]. rewrite Sc, Hh. cbn [Nat.sub seq flat_map app]. destruct (@b_row_ones u r (width_of r) Ht) as [O1 O2].
  apply Forall_forall. intros s Hi. apply in_app_or in Hi as [Hi|Hi]; [rewrite (@put_ones_In u _ _ _ _ _ O1) in Hi|rewrite (@put_ones_In u _ _ _ _ _ O2) in Hi];
    destruct Hi as (i & c & En & ->); apply b_row_nth in En; try exact Hw; unfold in_rect; cbn [s_x s_y]; lia.
Qed.
Print Assumptions C50_line.
(** The rectangle given by [new] isn't filled and has a border of spaces; the setters change only what they tell *)
Theorem C50_setters : forall r a cs bs b,
  r_area (rect_new a cs) = a /\ r_colors (rect_new a cs) = cs /\ r_fill (rect_new a cs) = false
  /\ Forall (fun c => c = 32%N) (border_chars (r_border (rect_new a cs)))
  /\ set_border_style r bs = mkRect (r_area r) (r_colors r) (r_fill r) bs
  /\ set_fill r b = mkRect (r_area r) (r_colors r) b (r_border r).
Proof. intros. repeat split. repeat constructor. Qed.
Print Assumptions C50_setters.

Definition demo_rect (w h : N) : Rect := set_border_style (set_fill (rect_new (mkArea 5 7 w h) cs_default) true) BORDER_STYLE_MIDDLE_ROUND_LINE.
(** 4 columns, 3 rows *)
Example C50_example : thin_border demo (r_border (demo_rect 4 3)) /\ on_screen (r_area (demo_rect 4 3))
  /\ match rect_draw (demo_rect 4 3) with Ret out => map (fun s => (s_x s, s_y s, s_char s)) (screen demo 0 0 out) | _ => [] end
  = [(5, 7, 9581%N); (6, 7, 9472%N); (7, 7, 9472%N); (8, 7, 9582%N);
     (5, 8, 9474%N); (6, 8, 32%N); (7, 8, 32%N); (8, 8, 9474%N);
     (5, 9, 9584%N); (6, 9, 9472%N); (7, 9, 9472%N); (8, 9, 9583%N)].
Proof. split; [split; [reflexivity|repeat constructor]|]. split; [split; vm_compute; reflexivity|]. vm_compute. reflexivity. Qed.
(** The four borders one can use have chars of one column *)
Example C50_borders : Forall (thin_border demo) [BORDER_STYLE_HALF_WIDTH_OUTSIDE; BORDER_STYLE_MIDDLE_SQUARE_LINE; BORDER_STYLE_MIDDLE_ROUND_LINE; BORDER_STYLE_BLAND].
Proof. repeat constructor. Qed.

(** The smaller ones aren't kept in their area: with a width of 1, the right corner is after it *)
Example C50_narrow : exists r out s, rect_draw r = Ret out /\ on_screen (r_area r) /\ width_of r = 1 /\ 2 <= height_of r /\ In s (screen demo 0 0 out) /\ ~ in_rect r (s_x s) (s_y s).
Proof.
  exists (demo_rect 1 2). eexists. eexists. split; [vm_compute; reflexivity|]. split; [split; vm_compute; reflexivity|]. split; [reflexivity|]. split; [vm_compute; lia|].
  split; [right; left; reflexivity|]. vm_compute. lia.
Qed.
(** Without height, something is drawn on the line before, or there's a panic if it doesn't exist *)
Example C50_flat : exists r out s, rect_draw r = Ret out /\ on_screen (r_area r) /\ height_of r = 0 /\ 2 <= width_of r /\ In s (screen demo 0 0 out) /\ s_y s < top_of r.
Proof.
  exists (demo_rect 3 0). eexists. eexists. split; [vm_compute; reflexivity|]. split; [split; vm_compute; reflexivity|]. split; [reflexivity|]. split; [vm_compute; lia|].
  split; [do 3 right; left; reflexivity|]. vm_compute. lia.
Qed.
